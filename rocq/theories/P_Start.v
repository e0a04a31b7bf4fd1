(** Facts about the worker pools of M_Start.v. *)
From Coq Require Import String.
From Coq Require Import ZArith List Arith Lia Bool Permutation Relations.
From Verif Require Import Py Num Arr Conc M_Start.
Import ListNotations.
Local Open Scope nat_scope.

Lemma seq_split w p : w < p -> seq 0 p = seq 0 w ++ w :: seq (S w) (p - S w).
Proof. intros H. replace p with (w + S (p - S w)) at 1 by lia. rewrite seq_app. reflexivity. Qed.

Lemma map_upd {A B} (g : nat -> A -> B) (f : nat -> A) w a p : w < p ->
  map (fun x => g x (upd f w a x)) (seq 0 p) =
  map (fun x => g x (f x)) (seq 0 w) ++ g w a :: map (fun x => g x (f x)) (seq (S w) (p - S w)).
Proof.
  intros H. rewrite (seq_split w p H), map_app. cbn [map]. f_equal; [|f_equal].
  - apply map_ext_in. intros x Hx. apply in_seq in Hx. unfold upd. destruct (Nat.eqb_spec x w); [lia|reflexivity].
  - unfold upd. now rewrite Nat.eqb_refl.
  - apply map_ext_in. intros x Hx. apply in_seq in Hx. unfold upd. destruct (Nat.eqb_spec x w); [lia|reflexivity].
Qed.

Section Facts.
  Context {C V T : Type} (ceq : C -> C -> bool).

  (** private copies: the parent never sees a write *)
  Lemma spawn_main (body : nat -> T -> (C -> V) -> list (C * V)) p s s' :
    clos_refl_trans_1n _ (pstep ceq false body p) s s' -> ps_main s' = ps_main s.
  Proof. induction 1 as [|s1 s2 s3 H _ IH]; [reflexivity|]. rewrite IH. now destruct H. Qed.

  (** a shared buffer: the machine does what [pool_run] of Conc.v allows *)
  Lemma shared_run (writes : T -> list (C * V)) body p s s' :
    (forall w t m, w < p -> body w t m = writes t) ->
    clos_refl_trans_1n _ (pstep ceq true body p) s s' -> pool_done p s' ->
    exists (rest : nat -> list (list (C * V))) w,
      Permutation (concat (map rest (seq 0 p))) (map writes (ps_queue s)) /\
      interleave (map (fun x => ps_todo s x ++ concat (rest x)) (seq 0 p)) w /\
      ps_main s' = run ceq (ps_main s) w.
  Proof.
    intros HB H D. revert D. induction H as [s|s1 s2 s3 H _ IH]; intros D.
    - destruct D as (Dq & Dt). exists (fun _ => []), []. split; [|split].
      + rewrite Dq. cbn. induction (seq 0 p); cbn; auto.
      + apply il_done. intros t Ht. apply in_map_iff in Ht as (x & <- & Hx). apply in_seq in Hx.
        rewrite Dt by lia. reflexivity.
      + reflexivity.
    - specialize (IH D). destruct H as [s w t q Hw Ht Hq | s w c v l Hw Ht].
      + cbn [ps_main ps_todo ps_queue] in IH. rewrite (HB _ _ _ Hw) in IH.
        destruct IH as (rest & tr & P & I & R). exists (upd rest w (writes t :: rest w)), tr.
        assert (M : map (fun x => upd (ps_todo s) w (writes t) x ++ concat (rest x)) (seq 0 p) =
                    map (fun x => ps_todo s x ++ concat (upd rest w (writes t :: rest w) x)) (seq 0 p)).
        { rewrite (map_upd (fun x y => y ++ concat (rest x)) (ps_todo s) w (writes t) p Hw).
          rewrite (map_upd (fun x y => ps_todo s x ++ concat y) rest w (writes t :: rest w) p Hw).
          rewrite Ht. reflexivity. }
        rewrite <- M. split; [|split; assumption].
        rewrite Hq. cbn [map]. rewrite <- P.
        assert (M2 : map (upd rest w (writes t :: rest w)) (seq 0 p) =
                     map rest (seq 0 w) ++ (writes t :: rest w) :: map rest (seq (S w) (p - S w)))
          by exact (map_upd (fun _ y => y) rest w (writes t :: rest w) p Hw).
        rewrite M2, (seq_split w p Hw), map_app, !concat_app. cbn [map concat app].
        apply Permutation_sym, Permutation_middle.
      + cbn [ps_main ps_todo ps_queue] in IH. destruct IH as (rest & tr & P & I & R).
        exists rest, ((c, v) :: tr). split; [exact P|]. split.
        * rewrite (map_upd (fun x y => y ++ concat (rest x)) (ps_todo s) w l p Hw) in I.
          rewrite (seq_split w p Hw), map_app. cbn [map]. rewrite Ht. cbn [app]. now apply il_step.
        * rewrite R. reflexivity.
  Qed.

  Lemma shared_pool (writes : T -> list (C * V)) body p m tasks s' :
    (forall w t m, w < p -> body w t m = writes t) ->
    pool_ends ceq true body p (pool_start m tasks) s' -> pool_run ceq m (map writes tasks) (ps_main s').
  Proof.
    intros HB (H & D). destruct (shared_run writes body p _ _ HB H D) as (rest & w & P & I & R).
    cbn [ps_main ps_todo ps_queue pool_start app] in P, I, R.
    exists (map rest (seq 0 p)), w. split; [exact P|]. split; [|exact R]. rewrite map_map. exact I.
  Qed.

  (** every pool can do its work *)
  Lemma rt_trans (R : relation (@pstate C V T)) a b c : clos_refl_trans_1n _ R a b -> clos_refl_trans_1n _ R b c -> clos_refl_trans_1n _ R a c.
  Proof. induction 1; intros H2; [exact H2|]. econstructor; eauto. Qed.

  Lemma writes_done shared body p : 0 < p -> forall l (s : @pstate C V T), ps_todo s 0 = l ->
    exists s', clos_refl_trans_1n _ (pstep ceq shared body p) s s' /\ ps_todo s' 0 = [] /\
      (forall w, 0 < w -> ps_todo s' w = ps_todo s w) /\ ps_queue s' = ps_queue s.
  Proof.
    intros Hp. induction l as [|[c v] l IH]; intros s Hs.
    - exists s. repeat split; auto. constructor.
    - assert (St := ps_write ceq shared body p s 0 c v l Hp Hs).
      set (s1 := if shared then _ else _) in St.
      assert (T1 : forall w, ps_todo s1 w = upd (ps_todo s) 0 l w) by (unfold s1; destruct shared; reflexivity).
      assert (Q1 : ps_queue s1 = ps_queue s) by (unfold s1; destruct shared; reflexivity).
      destruct (IH s1) as (s' & R & A & B & Q); [rewrite T1; reflexivity|].
      exists s'. split; [econstructor; eauto|]. split; [exact A|]. split; [|congruence].
      intros w Hw. rewrite B, T1 by exact Hw. unfold upd. destruct (Nat.eqb_spec w 0); [lia|reflexivity].
  Qed.

  Lemma pool_can_end shared (body : nat -> T -> (C -> V) -> list (C * V)) p m tasks : 0 < p ->
    exists s, pool_ends ceq shared body p (pool_start m tasks) s.
  Proof.
    intros Hp.
    assert (G : forall tasks (s : @pstate C V T), ps_queue s = tasks -> (forall w, w < p -> ps_todo s w = []) ->
      exists s', pool_ends ceq shared body p s s').
    { clear tasks. induction tasks as [|t q IH]; intros s Hq Ht.
      - exists s. split; [constructor|]. split; auto.
      - assert (St := ps_take ceq shared body p s 0 t q Hp (Ht 0 Hp) Hq).
        set (s1 := PState _ _ _ _) in St.
        destruct (writes_done shared body p Hp (ps_todo s1 0) s1 eq_refl) as (s2 & R & A & B & Q).
        destruct (IH s2) as (s3 & R3 & D3).
        { rewrite Q. reflexivity. }
        { intros w Hw. destruct (Nat.eq_dec w 0) as [->|Hn]; [exact A|]. rewrite B by lia. cbn. unfold upd.
          destruct (Nat.eqb_spec w 0); [lia|]. now apply Ht. }
        exists s3. split; [|exact D3]. econstructor; [exact St|]. eapply rt_trans; eauto. }
    apply (G tasks); reflexivity || auto.
  Qed.
End Facts.

Lemma pool_with_exists {C V T} (ceq : C -> C -> bool) st how p (m : C -> V) (tasks : list T) writes : 0 < p ->
  exists m', pool_with ceq st how p m tasks writes m'.
Proof.
  intros Hp. destruct (pool_can_end (V:=V) ceq (shares st how) (fun _ t _ => writes t) p m tasks Hp) as (s & H).
  exists (ps_main s), s. auto.
Qed.

(** the two kinds of pools *)
Lemma pool_shared {C V T} (ceq : C -> C -> bool) st how p (m : C -> V) (tasks : list T) writes m' :
  shares st how = true -> pool_with ceq st how p m tasks writes m' -> pool_run ceq m (map writes tasks) m'.
Proof.
  intros E (s & H & ->). rewrite E in H. eapply shared_pool; [|exact H]. reflexivity.
Qed.

Lemma pool_private {C V T} (ceq : C -> C -> bool) st how p (m : C -> V) (tasks : list T) writes m' :
  shares st how = false -> pool_with ceq st how p m tasks writes m' -> m' = m.
Proof. intros E (s & (H & _) & ->). rewrite E in H. now apply spawn_main in H. Qed.

Lemma not_fork st : st <> Fork -> shares st AsView = false.
Proof. now destruct st. Qed.
