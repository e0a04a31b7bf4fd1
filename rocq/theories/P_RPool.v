(** The pool of r_precision: invariants of its histories. *)
From Coq Require Import String.
From Coq Require Import ZArith List Arith Lia Bool Relations.
From Verif Require Import Py Num Arr Sort Conc S_Neighbors M_IO M_GK M_SNN M_KNN M_MPEmpiric M_SparseKNN M_Start M_RPool.
Import ListNotations.
Local Open Scope py_scope.
Local Open Scope nat_scope.

Lemma upd_same {A} (g : nat -> A) w a : upd g w a w = a.
Proof. unfold upd. now rewrite Nat.eqb_refl. Qed.
Lemma upd_other {A} (g : nat -> A) w a x : x <> w -> upd g w a x = g x.
Proof. intros H. unfold upd. apply Nat.eqb_neq in H. now rewrite H. Qed.

Lemma mapM_app {A B} (g : A -> result B) l1 l2 :
  mapM g (l1 ++ l2) = (let* a := mapM g l1 in let* b := mapM g l2 in Ok (a ++ b)).
Proof.
  induction l1 as [|x l1 IH]; cbn; [now destruct (mapM g l2)|].
  destruct (g x) as [y|e]; cbn; [|reflexivity]. rewrite IH. destruct (mapM g l1); cbn; [|reflexivity].
  now destruct (mapM g l2).
Qed.

Lemma nth_error_cat {A} (l : list A) x : nth_error l (length l) = None /\ nth_error (l ++ [x]) (length l) = Some x.
Proof. split; [apply nth_error_None; lia|]. rewrite nth_error_app2 by lia. now rewrite Nat.sub_diag. Qed.

Lemma combine_in {A} (l : list A) k c x : In (c, x) (combine (seq k (length l)) l) -> k <= c /\ nth_error l (c - k) = Some x.
Proof.
  revert k. induction l as [|y l IH]; cbn; [easy|]. intros k [E|H].
  - injection E as -> ->. rewrite Nat.sub_diag. split; [lia|reflexivity].
  - apply IH in H as [H1 H2]. split; [lia|]. replace (c - k) with (S (c - S k)) by lia. exact H2.
Qed.
Lemma combine_fst {A} (l : list A) k : map fst (combine (seq k (length l)) l) = seq k (length l).
Proof. revert k. induction l as [|y l IH]; intros k; cbn; [reflexivity|]. now rewrite IH. Qed.

Lemma nodup_snoc {A} (l : list A) x : NoDup l -> ~ In x l -> NoDup (l ++ [x]).
Proof.
  induction l as [|y l IH]; cbn; intros H N; [constructor; [easy|constructor]|]. inversion H; subst. constructor.
  - intros J. apply in_app_iff in J as [J|[->|[]]]; [contradiction|]. apply N. now left.
  - apply IH; [assumption|]. intros J. apply N. now right.
Qed.

Section Machine.
  Context {E T R : Type} (f : E -> T -> result R) (env : E) (p : nat) (chunks : list (list T)).
  Notation state := (@rstate E T R).

  (** what is right in every state *)
  Record good (s : state) : Prop := {
    g_queue : forall c ch, In (c, ch) (rs_queue s) -> nth_error chunks c = Some ch;
    g_ready : forall w e, rs_work s w = RReady e -> e = env;
    g_busy : forall w e c ch, rs_work s w = RBusy e c ch -> e = env /\ nth_error chunks c = Some ch;
    g_wait : forall c o, In (c, o) (rs_wait s) -> exists ch, nth_error chunks c = Some ch /\ o = mapM (f env) ch;
    g_items : rs_items s = map (mapM (f env)) (firstn (length (rs_items s)) chunks)
  }.

  Lemma firstn_snoc (l : list (list T)) k x : nth_error l k = Some x -> firstn (S k) l = firstn k l ++ [x].
  Proof.
    revert k. induction l as [|y l IH]; intros [|k]; try discriminate.
    - now intros [= ->].
    - intros H. change (nth_error l k = Some x) in H. change (y :: firstn (S k) l = (y :: firstn k l) ++ [x]). now rewrite (IH k H).
  Qed.

  Lemma items_more items c ch : items = map (mapM (f env)) (firstn (length items) chunks) ->
    nth_error chunks c = Some ch -> c = length items ->
    items ++ [mapM (f env) ch] = map (mapM (f env)) (firstn (length (items ++ [mapM (f env) ch])) chunks).
  Proof.
    intros G H ->. rewrite app_length. cbn [length]. rewrite Nat.add_1_r, (firstn_snoc _ _ _ H), map_app. cbn [map]. now rewrite <- G.
  Qed.

  Lemma good_start : good (rstart chunks).
  Proof.
    split; cbn; try easy. intros c ch H. apply combine_in in H as [_ H]. now rewrite Nat.sub_0_r in H.
  Qed.

  Lemma good_step s s' : good s -> rstep f env p s s' -> good s'.
  Proof.
    intros [Q A B W I] [H|[w H]].
    - destruct H as [s w Hw Ew|s w e c chunk q Hw Ew Eq Eg|s w e c chunk items wait Hw Ew Ep Ea|s o l1 l2 El].
      + split; cbn; auto; intros x.
        * intros e. destruct (Nat.eq_dec x w) as [->|N]; [rewrite upd_same; congruence|rewrite upd_other by exact N; eauto].
        * intros e c ch. destruct (Nat.eq_dec x w) as [->|N]; [rewrite upd_same; congruence|rewrite upd_other by exact N; eauto].
      + split; cbn; auto.
        * intros c' ch H. apply Q. rewrite Eq. now right.
        * intros x e'. destruct (Nat.eq_dec x w) as [->|N]; [rewrite upd_same; congruence|rewrite upd_other by exact N; eauto].
        * intros x e' c' ch. destruct (Nat.eq_dec x w) as [->|N]; [rewrite upd_same|rewrite upd_other by exact N; eauto].
          intros [= <- <- <-]. split; [eauto|]. apply Q. rewrite Eq. now left.
      + destruct (B _ _ _ _ Ew) as [-> Ec]. unfold arrive in Ea.
        assert (WR : forall x e', upd (rs_work s) w (RReady env) x = RReady e' -> e' = env).
        { intros x e'. destruct (Nat.eq_dec x w) as [->|N]; [rewrite upd_same; congruence|rewrite upd_other by exact N; eauto]. }
        assert (WB : forall x e' c' ch, upd (rs_work s) w (RReady env) x = RBusy e' c' ch -> e' = env /\ nth_error chunks c' = Some ch).
        { intros x e' c' ch. destruct (Nat.eq_dec x w) as [->|N]; [rewrite upd_same; congruence|rewrite upd_other by exact N; eauto]. }
        destruct (Nat.eqb_spec c (length (rs_items s))) as [E1|E1]; injection Ea as <- <-; split; cbn; auto.
        * now apply (items_more _ c).
        * intros c' o H. apply in_app_iff in H as [H|[[= <- <-]|[]]]; eauto.
      + destruct (W (length (rs_items s)) o) as (ch & Ec & ->); [rewrite El; apply in_app_iff; right; now left|].
        split; cbn; auto.
        * intros c' o H. apply W. rewrite El. apply in_app_iff in H. apply in_app_iff. destruct H; [now left|right; now right].
        * now apply (items_more _ (length (rs_items s))).
    - destruct H as [s g u Hw Eg Eu]. split; cbn; auto; intros x.
      + intros e. destruct (Nat.eq_dec x w) as [->|N]; [rewrite upd_same; congruence|rewrite upd_other by exact N; eauto].
      + intros e c ch. destruct (Nat.eq_dec x w) as [->|N]; [rewrite upd_same; congruence|rewrite upd_other by exact N; eauto].
  Qed.

  Lemma good_history s s' : good s -> rhistory f env p s s' -> good s'.
  Proof. intros G H. induction H as [|s s1 s2 H1 _ IH]; [exact G|]. apply IH. eapply good_step; eauto. Qed.

  (** how a call ends is how the tasks end one after the other *)
  Lemma items_ends (l : list (list T)) :
    (forall pre e post, map (mapM (f env)) l = map Ok pre ++ Raise e :: post -> mapM (f env) (concat l) = Raise e) /\
    (forall ls, map (mapM (f env)) l = map Ok ls -> mapM (f env) (concat l) = Ok (concat ls)).
  Proof.
    induction l as [|ch l [IH1 IH2]]; split.
    - intros [|] e post; discriminate.
    - intros [|]; [reflexivity|discriminate].
    - intros [|x pre] e post; cbn [map app concat]; intros H; injection H as H1 H2; rewrite mapM_app, H1; cbn; [reflexivity|].
      now rewrite (IH1 _ _ _ H2).
    - intros [|x ls]; [discriminate|]. cbn [map concat]. intros H. injection H as H1 H2. rewrite mapM_app, H1. cbn. now rewrite (IH2 _ H2).
  Qed.

  Lemma prefix_raises (l1 l2 : list (list T)) e : mapM (f env) (concat l1) = Raise e -> mapM (f env) (concat (l1 ++ l2)) = Raise e.
  Proof. intros H. rewrite concat_app, mapM_app, H. reflexivity. Qed.

  Theorem ends_serial s r : rhistory f env p (rstart chunks) s -> rends chunks s r -> r = mapM (f env) (concat chunks).
  Proof.
    intros H Ends. pose proof (g_items _ (good_history _ _ good_start H)) as I.
    destruct Ends as [pre e post Er|ls Er El].
    - rewrite Er in I at 1. symmetry in I. apply items_ends in I. symmetry.
      rewrite <- (firstn_skipn (length (rs_items s)) chunks). now apply prefix_raises.
    - assert (length (rs_items s) = length chunks) as L by (rewrite Er, map_length; exact El).
      rewrite L, firstn_all, Er in I. symmetry in I. now rewrite (proj2 (items_ends chunks) ls I).
  Qed.

  (** every chunk is in one place *)
  Record single (s : state) : Prop := {
    u_queue : NoDup (map fst (rs_queue s));
    u_wait : NoDup (map fst (rs_wait s));
    u_qi : forall c, In c (map fst (rs_queue s)) -> length (rs_items s) <= c;
    u_wi : forall c, In c (map fst (rs_wait s)) -> length (rs_items s) <= c;
    u_qw : forall c, In c (map fst (rs_queue s)) -> ~ In c (map fst (rs_wait s));
    u_busy : forall w e c ch, rs_work s w = RBusy e c ch ->
      length (rs_items s) <= c /\ ~ In c (map fst (rs_queue s)) /\ ~ In c (map fst (rs_wait s)) /\
      forall w' e' ch', rs_work s w' = RBusy e' c ch' -> w' = w
  }.

  Lemma single_start : single (rstart chunks).
  Proof.
    split; cbn; try easy; try constructor; try lia.
    rewrite combine_fst. apply seq_NoDup.
  Qed.

  Lemma upd_busy {A} (g : nat -> @rworker E T) w x (v : @rworker E T) (P : A) :
    forall e c ch, upd g w v x = RBusy e c ch -> (forall e c ch, v <> RBusy e c ch) -> x <> w /\ g x = RBusy e c ch.
  Proof.
    intros e c ch H N. destruct (Nat.eq_dec x w) as [->|D]; [rewrite upd_same in H; now elim (N e c ch)|].
    rewrite upd_other in H by exact D. now split.
  Qed.

  Lemma single_step s s' : single s -> rstep f env p s s' -> single s'.
  Proof.
    intros [UQ UW QI WI QW B] [H|[w H]].
    - destruct H as [s w Hw Ew|s w e c chunk q Hw Ew Eq Eg|s w e c chunk items wait Hw Ew Ep Ea|s o l1 l2 El].
      + split; cbn; auto. intros x e c ch H. apply (upd_busy _ _ _ _ I) in H as [N H]; [|discriminate].
        destruct (B _ _ _ _ H) as (B1 & B2 & B3 & B4). repeat split; auto.
        intros w' e' ch' H'. apply (upd_busy _ _ _ _ I) in H' as [N' H']; [|discriminate]. eauto.
      + rewrite Eq in *. cbn [map fst] in *. inversion UQ as [|? ? U1 U2]; subst.
        split; cbn; auto.
        * intros c' H. apply QI. now right.
        * intros c' H. apply QW. now right.
        * intros x e' c' ch. destruct (Nat.eq_dec x w) as [->|N].
          -- rewrite upd_same. intros [= <- <- <-]. split; [apply QI; now left|]. split; [exact U1|]. split; [apply QW; now left|].
             intros w' e' ch' H'. destruct (Nat.eq_dec w' w) as [D|D]; [exact D|]. rewrite upd_other in H' by exact D.
             destruct (B _ _ _ _ H') as (_ & B2 & _). elim B2. now left.
          -- rewrite upd_other by exact N. intros H. destruct (B _ _ _ _ H) as (B1 & B2 & B3 & B4).
             split; [exact B1|]. split; [intros J; apply B2; now right|]. split; [exact B3|].
             intros w' e1 ch1 H'. destruct (Nat.eq_dec w' w) as [->|D].
             ++ rewrite upd_same in H'. injection H' as <- <- <-. elim B2. now left.
             ++ rewrite upd_other in H' by exact D. eauto.
      + destruct (B _ _ _ _ Ew) as (B1 & B2 & B3 & B4). unfold arrive in Ea.
        destruct (Nat.eqb_spec c (length (rs_items s))) as [E1|E1]; injection Ea as <- <-; split; cbn; auto.
        * intros c' H. rewrite app_length. cbn. pose proof (QI _ H). assert (c' <> c) by (intros ->; contradiction). lia.
        * intros c' H. rewrite app_length. cbn. pose proof (WI _ H). assert (c' <> c) by (intros ->; contradiction). lia.
        * intros x e' c' ch H. apply (upd_busy _ _ _ _ I) in H as [N H]; [|discriminate].
          destruct (B _ _ _ _ H) as (C1 & C2 & C3 & C4).
          assert (c' <> c) by (intros ->; apply N; now apply B4 in H).
          split; [rewrite app_length; cbn; lia|]. split; [exact C2|]. split; [exact C3|].
          intros w' e1 ch1 H'. apply (upd_busy _ _ _ _ I) in H' as [N' H']; [|discriminate]. eauto.
        * rewrite map_app. cbn. now apply nodup_snoc.
        * intros c' H. rewrite map_app in H. apply in_app_iff in H as [H|[<-|[]]]; [now apply WI|exact B1].
        * intros c' H J. rewrite map_app in J. apply in_app_iff in J as [J|[<-|[]]]; [now apply (QW c')|now apply B2].
        * intros x e' c' ch H. apply (upd_busy _ _ _ _ I) in H as [N H]; [|discriminate].
          destruct (B _ _ _ _ H) as (C1 & C2 & C3 & C4).
          split; [exact C1|]. split; [exact C2|]. split.
          -- intros J. rewrite map_app in J. apply in_app_iff in J as [J|[<-|[]]]; [now apply C3|]. apply N. now apply B4 in H.
          -- intros w' e1 ch1 H'. apply (upd_busy _ _ _ _ I) in H' as [N' H']; [|discriminate]. eauto.
      + rewrite El in *. rewrite map_app in *. cbn [map fst] in *.
        pose proof (NoDup_remove_1 _ _ _ UW) as U1. pose proof (NoDup_remove_2 _ _ _ UW) as U2.
        assert (L : length (rs_items s ++ [o]) = S (length (rs_items s))) by (rewrite app_length; cbn; lia).
        split; cbn; rewrite ?L, ?map_app; auto.
        * intros c H. pose proof (QI _ H). assert (c <> length (rs_items s)); [|lia]. intros ->. apply (QW _ H). apply in_app_iff. right. now left.
        * intros c H. assert (length (rs_items s) <= c) by (apply WI; apply in_app_iff in H; apply in_app_iff; destruct H; [now left|right; now right]).
          assert (c <> length (rs_items s)); [|lia]. intros ->. contradiction.
        * intros c H J. apply (QW _ H). apply in_app_iff in J. apply in_app_iff. destruct J; [now left|right; now right].
        * intros w e c ch H. destruct (B _ _ _ _ H) as (C1 & C2 & C3 & C4).
          split; [|split; [exact C2|split; [|exact C4]]].
          -- assert (c <> length (rs_items s)); [|lia]. intros ->. apply C3. apply in_app_iff. right. now left.
          -- intros J. apply C3. apply in_app_iff in J. apply in_app_iff. destruct J; [now left|right; now right].
    - destruct H as [s g u Hw Eg Eu]. split; cbn; auto. intros x e c ch H. apply (upd_busy _ _ _ _ I) in H as [N H]; [|discriminate].
      destruct (B _ _ _ _ H) as (B1 & B2 & B3 & B4). repeat split; auto.
      intros w' e' ch' H'. apply (upd_busy _ _ _ _ I) in H' as [N' H']; [|discriminate]. eauto.
  Qed.
  Lemma single_history s s' : single s -> rhistory f env p s s' -> single s'.
  Proof. intros G H. induction H as [|s s1 s2 H1 _ IH]; [exact G|]. apply IH. eapply single_step; eauto. Qed.

  (** chunk [c] is nowhere any more *)
  Record lost (c : nat) (s : state) : Prop := {
    l_items : length (rs_items s) <= c;
    l_queue : ~ In c (map fst (rs_queue s));
    l_wait : ~ In c (map fst (rs_wait s));
    l_busy : forall w e ch, rs_work s w <> RBusy e c ch
  }.
  Lemma lost_step c s s' : lost c s -> rstep f env p s s' -> lost c s'.
  Proof.
    intros [A Q W B] [H|[w H]].
    - destruct H as [s w Hw Ew|s w e c1 chunk q Hw Ew Eq Eg|s w e c1 chunk items wait Hw Ew Ep Ea|s o l1 l2 El].
      + split; cbn; auto. intros x e ch H. apply (upd_busy _ _ _ _ I) in H as [N H]; [|discriminate]. now apply B in H.
      + rewrite Eq in *. cbn [map fst] in *. split; cbn; auto.
        * intros J. apply Q. now right.
        * intros x e' ch H. destruct (Nat.eq_dec x w) as [->|N]; [rewrite upd_same in H; injection H as <- <- <-; apply Q; now left|].
          rewrite upd_other in H by exact N. now apply B in H.
      + assert (N : c1 <> c) by (intros ->; now apply B in Ew). unfold arrive in Ea.
        assert (WB : forall x e' ch, upd (rs_work s) w (RReady e) x <> RBusy e' c ch).
        { intros x e' ch H. apply (upd_busy _ _ _ _ I) in H as [N' H]; [|discriminate]. now apply B in H. }
        destruct (Nat.eqb_spec c1 (length (rs_items s))) as [E1|E1]; injection Ea as <- <-; split; cbn; auto.
        * rewrite app_length. cbn. lia.
        * rewrite map_app. intros J. apply in_app_iff in J as [J|[J|[]]]; [now apply W|]. now apply N.
      + rewrite El in *. rewrite map_app in *. cbn [map fst] in *.
        assert (N : c <> length (rs_items s)) by (intros ->; apply W; apply in_app_iff; right; now left).
        split; cbn; rewrite ?map_app; auto.
        * rewrite app_length. cbn. lia.
        * intros J. apply W. apply in_app_iff in J. apply in_app_iff. destruct J; [now left|right; now right].
    - destruct H as [s g u Hw Eg Eu]. split; cbn; auto. intros x e ch H. apply (upd_busy _ _ _ _ I) in H as [N H]; [|discriminate]. now apply B in H.
  Qed.
  Lemma lost_history c s s' : lost c s -> rhistory f env p s s' -> lost c s'.
  Proof. intros G H. induction H as [|s s1 s2 H1 _ IH]; [exact G|]. apply IH. eapply lost_step; eauto. Qed.

  Lemma killed_lost s w e c ch s' : single s -> rs_work s w = RBusy e c ch -> rkill p w s s' -> lost c s'.
  Proof.
    intros [UQ UW QI WI QW B] Ew H. destruct (B _ _ _ _ Ew) as (B1 & B2 & B3 & B4). destruct H as [s g u Hw Eg Eu].
    split; cbn; auto. intros x e' ch' H. apply (upd_busy _ _ _ _ I) in H as [N H]; [|discriminate]. apply N. now apply B4 in H.
  Qed.

  (** after a worker was killed with chunk [c], only an exception of an earlier chunk can end the call *)
  Theorem lost_end s w e c ch s' s'' r : rhistory f env p (rstart chunks) s -> rs_work s w = RBusy e c ch -> rkill p w s s' ->
    rhistory f env p s' s'' -> rends chunks s'' r ->
    exists x, r = Raise x /\ mapM (f env) (concat (firstn c chunks)) = Raise x.
  Proof.
    intros H1 Ew K H2 En.
    pose proof (single_history _ _ single_start H1) as U. pose proof (good_history _ _ good_start H1) as G1.
    pose proof (killed_lost _ _ _ _ _ _ U Ew K) as L. apply (lost_history _ _ _ L) in H2 as L2.
    assert (G2 : good s'') by (eapply good_history; [|exact H2]; eapply good_step; [exact G1|right; eauto]).
    pose proof (g_items _ G2) as I. pose proof (l_items _ _ L2) as Li.
    assert (Lc : c < length chunks) by (apply nth_error_Some; rewrite (proj2 (g_busy _ G1 _ _ _ _ Ew)); discriminate).
    destruct En as [pre x post Er|ls Er El].
    - exists x. split; [reflexivity|]. rewrite Er in I at 1. symmetry in I. apply items_ends in I.
      rewrite <- (firstn_skipn (length (rs_items s'')) (firstn c chunks)), firstn_firstn, Nat.min_l by exact Li. now apply prefix_raises.
    - exfalso. assert (length (rs_items s'') = length chunks) by (rewrite Er, map_length; exact El). lia.
  Qed.

  (** *** without kills every history comes to an end *)
  Definition wweight (x : @rworker E T) : nat := match x with RNew => 1 | RReady _ => 0 | RBusy _ _ _ => 2 end.
  Definition wsum (g : nat -> @rworker E T) (n : nat) : nat := list_sum (map (fun w => wweight (g w)) (seq 0 n)).
  Definition weight (s : state) : nat := 3 * length (rs_queue s) + wsum (rs_work s) p + length (rs_wait s).

  Lemma wsum_out g n w v : n <= w -> wsum (upd g w v) n = wsum g n.
  Proof.
    intros H. unfold wsum. f_equal. apply map_ext_in. intros x Hx. apply in_seq in Hx. rewrite upd_other by lia. reflexivity.
  Qed.
  Lemma wsum_S g n : wsum g (S n) = wsum g n + wweight (g n).
  Proof. unfold wsum. rewrite seq_S, map_app, list_sum_app. cbn. lia. Qed.
  Lemma wsum_upd g n w v : w < n -> wsum (upd g w v) n + wweight (g w) = wsum g n + wweight v.
  Proof.
    induction n as [|n IH]; [lia|]. intros H. rewrite !wsum_S. destruct (Nat.eq_dec w n) as [->|N].
    - rewrite wsum_out by lia. rewrite upd_same. lia.
    - specialize (IH ltac:(lia)). rewrite (upd_other g w v n) by lia. lia.
  Qed.

  Lemma weight_step s s' : rwork f env p s s' -> weight s' < weight s.
  Proof.
    intros H. unfold weight. destruct H as [s w Hw Ew|s w e c chunk q Hw Ew Eq Eg|s w e c chunk items wait Hw Ew Ep Ea|s o l1 l2 El]; cbn [rs_queue rs_work rs_wait].
    - pose proof (wsum_upd (rs_work s) p w (RReady env) Hw) as U. rewrite Ew in U. cbn in U. lia.
    - pose proof (wsum_upd (rs_work s) p w (RBusy e c chunk) Hw) as U. rewrite Ew in U. cbn in U. rewrite Eq. cbn [length]. lia.
    - pose proof (wsum_upd (rs_work s) p w (RReady e) Hw) as U. rewrite Ew in U. cbn in U. unfold arrive in Ea.
      destruct (c =? length (rs_items s)); injection Ea as <- <-; rewrite ?app_length; cbn [length]; lia.
    - rewrite El, !app_length. cbn [length]. lia.
  Qed.

  Notation quiet := (quiet f env p).
  Lemma quiet_weight n s s' : quiet n s s' -> n + weight s' <= weight s.
  Proof. induction 1 as [s|n s s1 s2 _ IH H]; [lia|]. apply weight_step in H. lia. Qed.
  Lemma wsum_new n : wsum (fun _ => RNew) n = n.
  Proof. induction n as [|n IH]; [reflexivity|]. rewrite wsum_S, IH. cbn. lia. Qed.
  Lemma weight_start : weight (rstart chunks) = 3 * length chunks + p.
  Proof. unfold weight. cbn [rstart rs_queue rs_work rs_wait length]. rewrite wsum_new, combine_length, seq_length, Nat.min_id. lia. Qed.

  (** nothing is lost *)
  Record whole (s : state) : Prop := {
    w_get : rs_get s = true; w_put : rs_put s = true;
    w_all : forall c, length (rs_items s) <= c < length chunks ->
      In c (map fst (rs_queue s)) \/ In c (map fst (rs_wait s)) \/ exists w e ch, w < p /\ rs_work s w = RBusy e c ch
  }.
  Lemma whole_start : whole (rstart chunks).
  Proof. split; try reflexivity. cbn. intros c H. left. rewrite combine_fst. apply in_seq. lia. Qed.
  Lemma whole_step s s' : whole s -> rwork f env p s s' -> whole s'.
  Proof.
    intros [G U A] H. destruct H as [s w Hw Ew|s w e c1 chunk q Hw Ew Eq Eg|s w e c1 chunk items wait Hw Ew Ep Ea|s o l1 l2 El].
    - split; cbn; auto. intros c H. destruct (A c H) as [J|[J|(x & e & ch & Hx & J)]]; auto. right. right. exists x, e, ch. split; [exact Hx|].
      rewrite upd_other; [exact J|]. intros ->. congruence.
    - split; cbn; auto. intros c H. destruct (A c H) as [J|[J|(x & e1 & ch & Hx & J)]]; auto.
      + rewrite Eq in J. destruct J as [<-|J]; [|now left]. right. right. exists w, e, chunk. split; [exact Hw|]. now rewrite upd_same.
      + right. right. exists x, e1, ch. split; [exact Hx|]. rewrite upd_other; [exact J|]. intros ->. congruence.
    - unfold arrive in Ea. destruct (Nat.eqb_spec c1 (length (rs_items s))) as [E1|E1]; injection Ea as <- <-; split; cbn; auto; intros c H.
      + rewrite app_length in H. cbn in H. destruct (A c ltac:(lia)) as [J|[J|(x & e1 & ch & Hx & J)]]; auto.
        right. right. exists x, e1, ch. split; [exact Hx|]. rewrite upd_other; [exact J|]. intros ->. rewrite Ew in J. injection J as _ J _. lia.
      + rewrite map_app. destruct (A c H) as [J|[J|(x & e1 & ch & Hx & J)]]; [now left|right; left; apply in_app_iff; now left|].
        destruct (Nat.eq_dec x w) as [->|N].
        * rewrite Ew in J. injection J as _ <- _. right. left. apply in_app_iff. right. now left.
        * right. right. exists x, e1, ch. split; [exact Hx|]. now rewrite upd_other.
    - split; cbn; auto. intros c H. rewrite app_length in H. cbn in H. destruct (A c ltac:(lia)) as [J|[J|J]]; auto.
      right. left. rewrite El, map_app in J. cbn in J. rewrite map_app. apply in_app_iff in J. apply in_app_iff. destruct J as [J|[J|J]]; auto. lia.
  Qed.
  Lemma whole_quiet n s s' : whole s -> quiet n s s' -> whole s'.
  Proof. intros W H. induction H as [s|n s s1 s2 _ IH H]; [exact W|]. exact (whole_step _ _ (IH W) H). Qed.
  Lemma quiet_history n s s' : quiet n s s' -> rhistory f env p s s'.
  Proof.
    intros H. apply clos_rt_rt1n. induction H as [s|n s s1 s2 _ IH H]; [apply rt_refl|].
    eapply rt_trans; [exact IH|]. apply rt_step. now left.
  Qed.

  Lemma some_busy (g : nat -> @rworker E T) n : (exists w, w < n /\ exists e c ch, g w = RBusy e c ch) \/ (forall w e c ch, w < n -> g w <> RBusy e c ch).
  Proof.
    induction n as [|n [(w & Hw & J)|J]]; [right; lia|left; exists w; split; [lia|exact J]|].
    destruct (g n) as [|e|e c ch] eqn:Eg.
    - right. intros w e c ch Hw. destruct (Nat.eq_dec w n) as [->|N]; [congruence|apply J; lia].
    - right. intros w e' c ch Hw. destruct (Nat.eq_dec w n) as [->|N]; [congruence|apply J; lia].
    - left. exists n. split; [lia|]. eauto.
  Qed.

  (** a pool in which nothing was lost can go on until all results were handed on *)
  Lemma whole_progress s : 0 < p -> whole s -> length (rs_items s) < length chunks -> exists s', rwork f env p s s'.
  Proof.
    intros Hp [G U A] L. destruct (rs_queue s) as [|[c ch] q] eqn:Eq.
    - destruct (some_busy (rs_work s) p) as [(w & Hw & e & c & ch & J)|J].
      + destruct (arrive (rs_items s) (rs_wait s) c (mapM (f e) ch)) as [items wait] eqn:Ea. eexists. eapply r_result; eauto.
      + destruct (A (length (rs_items s)) ltac:(lia)) as [K|[K|(w & e & ch & Hw & K)]].
        * destruct K.
        * apply in_map_iff in K as ([c o] & Ec & K). cbn in Ec. subst c. apply in_split in K as (l1 & l2 & K). eexists. eapply r_order. exact K.
        * now apply J in K.
    - destruct (rs_work s 0) as [|e|e c1 ch1] eqn:Ew.
      + eexists. eapply r_init; eauto.
      + eexists. eapply r_take; eauto.
      + destruct (arrive (rs_items s) (rs_wait s) c1 (mapM (f e) ch1)) as [items wait] eqn:Ea. eexists. eapply r_result; eauto.
  Qed.

  (** when all results were handed on, the call has ended *)
  Lemma all_ends (items : list (result (list R))) :
    (exists pre e post, items = map Ok pre ++ Raise e :: post) \/ exists ls, items = map Ok ls.
  Proof.
    induction items as [|[x|e] items [(pre & e' & post & ->)|(ls & ->)]].
    - right. now exists [].
    - left. exists (x :: pre), e', post. reflexivity.
    - right. now exists (x :: ls).
    - left. now exists [], e, (map Ok pre ++ Raise e' :: post).
    - left. now exists [], e, (map Ok ls).
  Qed.
  Theorem quiet_ends n s : 0 < p -> quiet n (rstart chunks) s ->
    n <= 3 * length chunks + p /\ ((exists s', rwork f env p s s') \/ exists r, rends chunks s r).
  Proof.
    intros Hp H. split; [apply quiet_weight in H as W; rewrite weight_start in W; lia|].
    destruct (le_lt_dec (length chunks) (length (rs_items s))) as [L|L].
    - right. destruct (all_ends (rs_items s)) as [(pre & e & post & Ei)|(ls & Ei)].
      + exists (Raise e). eapply re_raise. exact Ei.
      + exists (Ok (concat ls)). apply re_ok; [exact Ei|]. apply quiet_history in H. apply (good_history _ _ good_start) in H.
        pose proof (f_equal (@length _) (g_items _ H)) as Q. rewrite map_length, firstn_length in Q. rewrite Ei, map_length in *. lia.
    - left. apply whole_progress; auto. eapply whole_quiet; [apply whole_start|exact H].
  Qed.
End Machine.
