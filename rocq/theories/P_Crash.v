(** Facts about worker pools with killed workers (M_Crash.v). *)
From Coq Require Import String.
From Coq Require Import ZArith List Arith Lia Bool Permutation Relations.
From Verif Require Import Py Num Arr Conc M_Start P_Start M_Crash.
Import ListNotations.
Local Open Scope nat_scope.

Section Facts.
  Context {C V T : Type} (ceq : C -> C -> bool) (writes : T -> list (C * V)).
  Notation wst := (@wstate C V).
  Notation kst := (@kstate C V T).

  Definition busy1 (x : wst) : nat := match x with WIdle => 0 | WBusy _ => 1 end.
  Definition busyp (f : nat -> wst) (p : nat) : nat := list_sum (map (fun w => busy1 (f w)) (seq 0 p)).
  (** tasks that can still send a result, and results *)
  Definition phi (p : nat) (s : kst) : nat := length (ks_queue s) + ks_done s + busyp (ks_work s) p.

  Lemma sum_upd {A} (g : A -> nat) (f : nat -> A) w a p : w < p ->
    list_sum (map (fun x => g (upd f w a x)) (seq 0 p)) + g (f w) = list_sum (map (fun x => g (f x)) (seq 0 p)) + g a.
  Proof.
    intros H. rewrite (map_upd (fun _ y => g y) f w a p H). rewrite (seq_split w p H).
    rewrite map_app, !list_sum_app. cbn [map list_sum fold_right]. lia.
  Qed.

  Lemma work_phi p s s' : kwork ceq writes p s s' -> phi p s' = phi p s.
  Proof.
    intros H. destruct H as [s w t q Hw E Q G|s w c v l Hw E|s w Hw E U]; unfold phi; cbn [ks_queue ks_done ks_work].
    - pose proof (sum_upd busy1 (ks_work s) w (WBusy (writes t)) p Hw) as S. rewrite E in S. cbn [busy1] in S. unfold busyp. rewrite Q. cbn [length]. lia.
    - pose proof (sum_upd busy1 (ks_work s) w (WBusy l) p Hw) as S. rewrite E in S. cbn [busy1] in S. unfold busyp. lia.
    - pose proof (sum_upd busy1 (ks_work s) w WIdle p Hw) as S. rewrite E in S. cbn [busy1] in S. unfold busyp. lia.
  Qed.
  Lemma kill_phi p w (s s' : kst) : kkill p w s s' -> phi p s' + busy1 (ks_work s w) = phi p s.
  Proof.
    intros H. destruct H as [s g u Hw Hg Hu]. unfold phi; cbn [ks_queue ks_done ks_work].
    pose proof (sum_upd busy1 (ks_work s) w WIdle p Hw) as S. cbn [busy1] in S. unfold busyp. lia.
  Qed.
  Lemma step_phi p s s' : kstep ceq writes p s s' -> phi p s' <= phi p s.
  Proof. intros [H|(w & H)]; [rewrite (work_phi _ _ _ H); lia|apply kill_phi in H; lia]. Qed.
  Lemma history_phi p s s' : khistory ceq writes p s s' -> phi p s' <= phi p s.
  Proof. induction 1 as [|a b c H _ IH]; [lia|]. apply step_phi in H. lia. Qed.
  Lemma start_phi p m tasks : phi p (kstart m tasks) = length tasks.
  Proof.
    unfold phi, busyp. cbn [ks_queue ks_done ks_work kstart busy1]. enough (E : list_sum (map (fun _ : nat => 0) (seq 0 p)) = 0) by lia.
    induction (seq 0 p); [reflexivity|assumption].
  Qed.

  (** a pool that returns lost no task, and did what a pool without deaths can do *)
  Definition todo_of (x : wst) : list (C * V) := match x with WIdle => [] | WBusy l => l end.
  Definition sim (s : kst) (a : @pstate C V T) : Prop :=
    ps_main a = ks_main s /\ ps_queue a = ks_queue s /\ forall w, ps_todo a w = todo_of (ks_work s w).
  Lemma step_sim p s s' a : kstep ceq writes p s s' -> phi p s' = phi p s -> sim s a ->
    exists a', clos_refl_trans_1n _ (pstep ceq true (fun _ t _ => writes t) p) a a' /\ sim s' a'.
  Proof.
    intros H HP (S1 & S2 & S3). destruct H as [H|(w & H)].
    - destruct H as [s w t q Hw E Q G|s w c v l Hw E|s w Hw E U].
      + eexists. split.
        * eapply Relation_Operators.rt1n_trans; [|apply rt1n_refl]. apply (ps_take ceq true (fun _ t _ => writes t) p a w t q Hw); [rewrite S3, E; reflexivity|congruence].
        * split; [exact S1|]. split; [reflexivity|]. intros x. cbn [ps_todo ks_work]. unfold upd. destruct (x =? w); [reflexivity|apply S3].
      + eexists. split.
        * eapply Relation_Operators.rt1n_trans; [|apply rt1n_refl]. apply (ps_write ceq true (fun _ t _ => writes t) p a w c v l Hw). rewrite S3, E. reflexivity.
        * cbn [ps_main ps_queue ps_todo]. split; [cbn [ps_main ks_main]; now rewrite S1|]. split; [exact S2|].
          intros x. cbn [ps_todo ks_work]. unfold upd. destruct (x =? w); [reflexivity|apply S3].
      + exists a. split; [apply rt1n_refl|]. split; [exact S1|]. split; [exact S2|].
        intros x. cbn [ks_work]. unfold upd. destruct (Nat.eqb_spec x w) as [->|]; [|apply S3]. rewrite S3, E. reflexivity.
    - pose proof (kill_phi _ _ _ _ H) as K. exists a. split; [apply rt1n_refl|]. destruct H as [s g u Hw Hg Hu].
      split; [exact S1|]. split; [exact S2|]. intros x. cbn [ks_work]. unfold upd. destruct (Nat.eqb_spec x w) as [->|]; [|apply S3].
      rewrite S3. destruct (ks_work s w); [reflexivity|]. cbn [busy1] in K. lia.
  Qed.
  Lemma history_sim p s s' : khistory ceq writes p s s' -> phi p s' = phi p s -> forall a, sim s a ->
    exists a', clos_refl_trans_1n _ (pstep ceq true (fun _ t _ => writes t) p) a a' /\ sim s' a'.
  Proof.
    induction 1 as [s|s1 s2 s3 H R IH]; intros HP a S; [exists a; split; [apply rt1n_refl|exact S]|].
    pose proof (step_phi _ _ _ H) as L1. pose proof (history_phi _ _ _ R) as L2.
    destruct (step_sim p s1 s2 a H ltac:(lia) S) as (a1 & R1 & S1). destruct (IH ltac:(lia) a1 S1) as (a2 & R2 & S2).
    exists a2. split; [|exact S2]. eapply rt_trans; eauto.
  Qed.

  Lemma busyp_0 f p : busyp f p = 0 -> forall w, w < p -> f w = WIdle.
  Proof.
    intros H w Hw. unfold busyp in H. rewrite (seq_split w p Hw), map_app, list_sum_app in H. cbn [map list_sum fold_right] in H.
    destruct (f w); [reflexivity|]. cbn [busy1] in H. lia.
  Qed.

  Lemma returns_run p m tasks s : khistory ceq writes p (kstart m tasks) s -> returns tasks s ->
    pool_run ceq m (map writes tasks) (ks_main s).
  Proof.
    intros H R. pose proof (history_phi _ _ _ H) as L. rewrite start_phi in L. unfold returns in R.
    assert (P : phi p s = phi p (kstart m tasks)) by (rewrite start_phi; unfold phi in *; lia).
    destruct (history_sim p _ _ H P (pool_start m tasks)) as (a & Ra & S1 & S2 & S3); [repeat split|].
    rewrite start_phi in P. unfold phi in P. rewrite <- S1. eapply (shared_pool ceq writes (fun _ t _ => writes t)); [reflexivity|].
    split; [exact Ra|]. split.
    - rewrite S2. destruct (ks_queue s); [reflexivity|cbn in P; lia].
    - intros w Hw. rewrite S3. rewrite (busyp_0 (ks_work s) p); [reflexivity|lia|exact Hw].
  Qed.

  (** a lost task *)
  Lemma lost_never_returns p m tasks s w s' s'' : khistory ceq writes p (kstart m tasks) s ->
    ks_work s w <> WIdle -> kkill p w s s' -> khistory ceq writes p s' s'' -> ks_done s'' < length tasks.
  Proof.
    intros H1 B K H2. apply history_phi in H1, H2. apply kill_phi in K. rewrite start_phi in H1.
    destruct (ks_work s w) eqn:E; [contradiction|]. cbn [busy1] in K. unfold phi in *. lia.
  Qed.

  (** progress and termination without lost tasks *)
  Definition harmless p (s s' : kst) : Prop :=
    kwork ceq writes p s s' \/ exists w, kkill p w s s' /\ ks_work s w = WIdle /\ ks_get s' = true /\ ks_put s' = true.
  Definition alive p n (s : kst) : Prop := ks_get s = true /\ ks_put s = true /\ phi p s = n.
  Lemma harmless_alive p n s s' : harmless p s s' -> alive p n s -> alive p n s'.
  Proof.
    intros H (A & B & P). destruct H as [H|(w & H & I & G & U)].
    - pose proof (work_phi _ _ _ H). destruct H; repeat split; cbn [ks_get ks_put] in *; auto; congruence.
    - pose proof (kill_phi _ _ _ _ H) as K. rewrite I in K. cbn [busy1] in K. repeat split; auto. lia.
  Qed.
  Lemma alive_progress p n s : 0 < p -> alive p n s -> ks_done s = n \/ exists s', kwork ceq writes p s s'.
  Proof.
    intros Hp (G & U & P). destruct (Nat.eq_dec (busyp (ks_work s) p) 0) as [Z|Z].
    - destruct (ks_queue s) as [|t q] eqn:Q; [left; unfold phi in P; rewrite Q in P; cbn in P; lia|].
      right. eexists. apply (k_take ceq writes p s 0 t q Hp); auto. now apply (busyp_0 (ks_work s) p).
    - right. assert (E : exists w, w < p /\ ks_work s w <> WIdle).
      { assert (Dec : forall w, {ks_work s w = WIdle} + {ks_work s w <> WIdle}) by (intros w; destruct (ks_work s w); [left; reflexivity|right; discriminate]).
        destruct (Forall_Exists_dec (fun w => ks_work s w = WIdle) Dec (seq 0 p)) as [F|F].
        - exfalso. apply Z. unfold busyp. rewrite Forall_forall in F. transitivity (list_sum (map (fun _ : nat => 0) (seq 0 p))).
          + f_equal. apply map_ext_in. intros w Hw. now rewrite F.
          + clear. induction (seq 0 p); [reflexivity|assumption].
        - apply Exists_exists in F as (w & Hw & N). apply in_seq in Hw. exists w. split; [lia|exact N]. }
      destruct E as (w & Hw & E). destruct (ks_work s w) as [|[|[c v] l]] eqn:W; [contradiction| |].
      + eexists. apply (k_result ceq writes p s w Hw W U).
      + eexists. apply (k_write ceq writes p s w c v l Hw W).
  Qed.

  Definition left1 (x : wst) : nat := match x with WIdle => 0 | WBusy l => 1 + length l end.
  Definition mu (p : nat) (s : kst) : nat :=
    list_sum (map (fun t => 2 + length (writes t)) (ks_queue s)) + list_sum (map (fun w => left1 (ks_work s w)) (seq 0 p)).
  Lemma work_mu p s s' : kwork ceq writes p s s' -> S (mu p s') = mu p s.
  Proof.
    intros H. destruct H as [s w t q Hw E Q G|s w c v l Hw E|s w Hw E U]; unfold mu; cbn [ks_queue ks_done ks_work].
    - pose proof (sum_upd left1 (ks_work s) w (WBusy (writes t)) p Hw) as S. rewrite E in S. cbn [left1] in S. rewrite Q. cbn [map list_sum fold_right].
      fold (list_sum (map (fun t => 2 + length (writes t)) q)). unfold list_sum in *. lia.
    - pose proof (sum_upd left1 (ks_work s) w (WBusy l) p Hw) as S. rewrite E in S. cbn [left1 length] in S. lia.
    - pose proof (sum_upd left1 (ks_work s) w WIdle p Hw) as S. rewrite E in S. cbn [left1 length] in S. lia.
  Qed.
  Lemma work_acc p s : Acc (fun b a => kwork ceq writes p a b) s.
  Proof.
    remember (mu p s) as n eqn:E. revert s E. induction n as [n IH] using lt_wf_ind. intros s ->.
    constructor. intros s' H. apply (IH (mu p s')); [|reflexivity]. apply work_mu in H. lia.
  Qed.
  Lemma alive_can_return p n s : 0 < p -> alive p n s -> exists s', clos_refl_trans_1n _ (kwork ceq writes p) s s' /\ ks_done s' = n.
  Proof.
    intros Hp. induction (work_acc p s) as [s _ IH]. intros A. destruct (alive_progress p n s Hp A) as [D|(s' & H)]; [exists s; split; [constructor|exact D]|].
    destruct (IH s' H (harmless_alive p n s s' (or_introl H) A)) as (s'' & R & D). exists s''. split; [|exact D]. econstructor; eauto.
  Qed.
  Lemma start_alive p m tasks : alive p (length tasks) (kstart m tasks).
  Proof. repeat split. apply start_phi. Qed.
End Facts.

(** chunks are made of tasks *)
Lemma split_chunks {A B} (f : A -> B) : forall (workers : list (list B)) (l : list A), concat workers = map f l ->
  exists parts : list (list A), map (map f) parts = workers /\ concat parts = l.
Proof.
  induction workers as [|x ws IH]; intros l H; cbn in H.
  - exists []. split; [reflexivity|]. symmetry in H. apply map_eq_nil in H. now subst.
  - symmetry in H. apply map_eq_app in H as (l1 & l2 & -> & <- & H). symmetry in H.
    destruct (IH l2 H) as (parts & <- & <-). exists (l1 :: parts). split; reflexivity.
Qed.
Lemma chunk_concat {C V T} (writes : T -> list (C * V)) (cs : list (list T)) :
  concat (map (chunk_writes writes) cs) = concat (map writes (concat cs)).
Proof.
  induction cs as [|c cs IH]; [reflexivity|]. cbn [map concat]. rewrite IH, map_app, concat_app. reflexivity.
Qed.
Lemma chunk_run {C V T} (ceq : C -> C -> bool) (writes : T -> list (C * V)) m chunks m' :
  pool_run ceq m (map (chunk_writes writes) chunks) m' -> pool_run ceq m (map writes (concat chunks)) m'.
Proof.
  intros (workers & w & P & I & R). apply Permutation_map_inv in P as (cs & E & P).
  destruct (split_chunks (chunk_writes writes) workers cs E) as (parts & <- & <-).
  exists (map (fun q => map writes (concat q)) parts), w. split; [|split; [|exact R]].
  - clear -P.
    assert (Q : concat (map (fun q => map writes (concat q)) parts) = map writes (concat (concat parts))).
    { induction parts as [|q l IH] in |- *; [reflexivity|]. cbn [map concat]. rewrite IH, concat_app, map_app. reflexivity. }
    refine (eq_ind_r (fun z => Permutation z (map writes (concat chunks))) _ Q). apply Permutation_map. clear Q. apply Permutation_sym.
    induction P; cbn [concat]; auto.
    + now apply Permutation_app_head.
    + rewrite !app_assoc. apply Permutation_app_tail, Permutation_app_comm.
    + etransitivity; eauto.
  - rewrite map_map in *. erewrite map_ext; [exact I|]. intros q. cbn beta. symmetry. apply chunk_concat.
Qed.

Lemma killed_run {C V T} (ceq : C -> C -> bool) p (m : C -> V) (tasks : list T) writes m' :
  killed_pool ceq p m tasks writes m' -> pool_run ceq m (map writes tasks) m'.
Proof. intros (chunks & s & <- & H & R & ->). apply chunk_run. eapply returns_run; eauto. Qed.
