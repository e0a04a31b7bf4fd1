(** Lemmas about candidate rows supplied by an index. *)
From Coq Require Import String.
From Coq Require Import ZArith List Arith Lia Bool Permutation Reals Lra.
From Verif Require Import Py Num NumT Arr Sort Conc S_Neighbors S_Approx S_ApproxANN M_Hubness M_Approx M_ApproxANN.
From Verif Require Import P_Hubness P_Approx.
Import ListNotations.
Local Open Scope nat_scope.

Section ANN.
  Context {V : Type} {N : Num V} {toX : V -> xr} (CL : CmpLaws V N toX).

  Lemma existsb_nan (l : list V) : no_nan l -> existsb nisnan l = false.
  Proof.
    intros H. destruct (existsb nisnan l) eqn:E; [|reflexivity]. apply existsb_exists in E as (x & I & E).
    rewrite (H x I) in E. discriminate.
  Qed.
  Lemma np_max_largest (l : list V) : l <> [] -> no_nan l -> largest l (np_max l).
  Proof.
    intros Hl Hn. unfold np_max. rewrite (existsb_nan l Hn). destruct l as [|x r]; [contradiction|].
    split; [apply vmax_in|]. intros y Hy. now apply (vmax_ge CL).
  Qed.
  Lemma vmax_app (x : V) l m : vmax x (l ++ m) = vmax (vmax x l) m.
  Proof. unfold vmax. apply fold_left_app. Qed.
  Lemma vmax_repeat_low (m v : V) q : nlt m v = false -> vmax m (repeat v q) = m.
  Proof. intros H. unfold vmax. induction q as [|q IH]; cbn; [reflexivity|]. rewrite H. exact IH. Qed.
  Lemma vmax_repeat_high (m v : V) q : nlt m v = true -> vmax m (repeat v (S q)) = v.
  Proof. intros H. unfold vmax. cbn. rewrite H. fold (vmax v (repeat v q)). apply vmax_repeat_low, (nlt_irrefl CL). Qed.

  Lemma no_nan_repeat (v : V) q : nisnan v = false -> no_nan (repeat v q).
  Proof. intros H x Hx. apply repeat_spec in Hx. now subst. Qed.
  Lemma no_nan_app (l m : list V) : no_nan l -> no_nan m -> no_nan (l ++ m).
  Proof. intros H1 H2 x Hx. apply in_app_iff in Hx as [Hx|Hx]; auto. Qed.
  Lemma n0_nan : nisnan (n0 : V) = false.
  Proof. rewrite (cl_nan _ _ _ CL), (cl_0 _ _ _ CL). reflexivity. Qed.

  (** padding with the maximum of a zero-initialised row *)
  Lemma np_max_zeros (l : list V) q : l <> [] -> no_nan l -> (forall x, In x l -> nle n0 x = true) ->
    np_max (l ++ repeat n0 q) = np_max l.
  Proof.
    intros Hl Hn H0. unfold np_max. rewrite (existsb_nan l Hn).
    rewrite existsb_nan by (apply no_nan_app; [exact Hn|apply no_nan_repeat, n0_nan]).
    destruct l as [|x r]; [contradiction|]. cbn [app]. rewrite vmax_app. apply vmax_repeat_low.
    pose proof (vmax_in x r) as I. specialize (H0 _ I). specialize (Hn _ I).
    rewrite (nle_not_lt CL) in H0 by (auto using n0_nan). now apply negb_true_iff in H0.
  Qed.
  (** ... of a row with old contents *)
  Lemma np_max_old (l : list V) v q : l <> [] -> (forall x, In x l -> nlt x v = true) ->
    np_max (l ++ repeat v (S q)) = v.
  Proof.
    intros Hl H. destruct l as [|x r]; [contradiction|].
    assert (Hn : no_nan (x :: r)) by (intros y Hy; apply (nlt_nan_r CL _ _ (H y Hy))).
    assert (Nv : nisnan v = false) by (apply (nlt_nan_r CL x v), H; now left).
    unfold np_max. rewrite existsb_nan by (apply no_nan_app; [exact Hn|apply no_nan_repeat, Nv]).
    cbn [app]. rewrite vmax_app. apply vmax_repeat_high, H, vmax_in.
  Qed.
  Lemma np_max_nan (l : list V) q : nisnan (nnan : V) = true -> np_max (l ++ repeat nnan (S q)) = nnan.
  Proof.
    intros H. unfold np_max. assert (E : existsb nisnan (l ++ repeat (nnan : V) (S q)) = true); [|now rewrite E].
    apply existsb_exists. exists nnan. split; [apply in_app_iff; right; now left|exact H].
  Qed.

  (** *** HNSW rows *)
  Lemma mapM_ok_nth {A B} (f : A -> result B) l r d : mapM f l = Ok r ->
    length r = length l /\ forall i d', i < length l -> f (nth i l d') = Ok (nth i r d).
  Proof.
    revert r. induction l as [|a l IH]; cbn; intros r E.
    - injection E as <-. split; [reflexivity|]. intros i d' Hi. inversion Hi.
    - destruct (f a) as [b|e] eqn:Ea; cbn in E; [|discriminate]. destruct (mapM f l) as [bs|e] eqn:El; cbn in E; [|discriminate].
      injection E as <-. destruct (IH bs eq_refl) as (L & H). split; [cbn; now rewrite L|].
      intros [|i] d' Hi; cbn; [exact Ea|]. apply H. cbn in Hi. lia.
  Qed.
  Lemma mapM_ok_iff {A B} (f : A -> result B) l : (exists r, mapM f l = Ok r) <-> forall a, In a l -> exists b, f a = Ok b.
  Proof.
    induction l as [|a l IH]; cbn.
    - split; [intros _ a []|intros _; now exists []].
    - split.
      + intros (r & E). destruct (f a) as [b|e] eqn:Ea; cbn in E; [|discriminate].
        destruct (mapM f l) as [bs|e] eqn:El; cbn in E; [|discriminate].
        intros x [<-|Hx]; [eauto|]. apply (proj1 IH); eauto.
      + intros H. destruct (H a (or_introl eq_refl)) as (b & ->). destruct (proj2 IH) as (bs & ->); [|cbn; eauto].
        intros x Hx. apply H. now right.
  Qed.
  Lemma mapM_raise_in {A B} (f : A -> result B) l e : mapM f l = Raise e -> exists a, In a l /\ f a = Raise e.
  Proof.
    induction l as [|a l IH]; cbn; [discriminate|]. destruct (f a) as [b|e'] eqn:Ea; cbn.
    - destruct (mapM f l) as [bs|e'] eqn:El; cbn; [discriminate|]. intros [= ->]. destruct (IH eq_refl) as (x & I & E). eauto.
    - intros [= ->]. eauto.
  Qed.

  Lemma hnsw_filter_row_ok k (a : list (nat * V)) r : hnsw_filter_row k a = Ok r ->
    exists self others, a = self :: others /\ length others <= k /\
      fst r = extended k (map fst others) (fst (last a self)) /\ snd r = extended k (map snd others) (np_max (map snd a)).
  Proof.
    destruct a as [|x l]; cbn [hnsw_filter_row]; [discriminate|]. unfold guard.
    destruct (Nat.ltb_spec k (length l)); cbn [bind]; [discriminate|]. intros E. injection E as <-.
    exists x, l. split; [reflexivity|]. split; [lia|]. cbn [fst snd]. split; [|reflexivity].
    unfold pad, extended. do 2 f_equal.
    assert (Hg : forall m (y z : nat * V), m <> [] -> last (map fst m) (fst y) = fst (last m z)).
    { induction m as [|b m IH]; intros y z Hm; [contradiction|]. destruct m as [|c m]; [reflexivity|].
      change (last (map fst (b :: c :: m)) (fst y)) with (last (map fst (c :: m)) (fst y)).
      change (last (b :: c :: m) z) with (last (c :: m) z). apply IH. discriminate. }
    apply (Hg (x :: l) (0, nnan) x). discriminate.
  Qed.
  Lemma hnsw_trafo_row_ok k (a : list (nat * V)) r : 1 <= k -> hnsw_trafo_row k a = Ok r ->
    exists first rest, a = first :: rest /\ length a <= k /\
      fst r = extended k (map fst a) (fst (last a first)) /\ snd r = extended k (map snd a) (np_max (map snd a)).
  Proof.
    intros Hk. destruct a as [|x l]; cbn [hnsw_trafo_row].
    - unfold guard. destruct (Nat.ltb_spec 0 k); [cbn; discriminate|lia].
    - unfold guard. destruct (Nat.ltb_spec k (length (x :: l))); cbn [bind]; [discriminate|]. intros E. injection E as <-.
      exists x, l. split; [reflexivity|]. split; [lia|]. cbn [fst snd]. split; [|reflexivity].
      unfold pad, extended. do 2 f_equal.
      assert (Hg : forall m (y z : nat * V), m <> [] -> last (map fst m) (fst y) = fst (last m z)).
      { induction m as [|b m IH]; intros y z Hm; [contradiction|]. destruct m as [|c m]; [reflexivity|].
        change (last (map fst (b :: c :: m)) (fst y)) with (last (map fst (c :: m)) (fst y)).
        change (last (b :: c :: m) z) with (last (c :: m) z). apply IH. discriminate. }
      apply (Hg (x :: l) (0, nnan) x). discriminate.
  Qed.

  (** *** pools over rows *)
  Lemma pool_rows_fun k rows R : pool_rows k rows R ->
    (forall r, In (Ok r) rows -> length (fst r) = k /\ length (snd r) = k) ->
    match R with Ok rs => mapM (fun r => r) rows = Ok rs | Raise e => In (Raise e) rows end.
  Proof.
    intros H HL. destruct H as [e I|rs buf E P]; [exact I|].
    rewrite E. f_equal.
    destruct (mapM_ok_nth _ _ _ ([], []) E) as (L & Hn).
    assert (HR : forall i, i < length rs -> length (fst (nth i rs ([], []))) = k /\ length (snd (nth i rs ([], []))) = k).
    { intros i Hi. apply HL. rewrite <- (Hn i (Raise ValueError)) by lia. apply nth_In. lia. }
    pose (f := fun c : nat * nat => (nth (snd c) (fst (nth (fst c) rs ([], []))) 0, nth (snd c) (snd (nth (fst c) rs ([], []))) (nnan : V))).
    assert (HT : forall i r, In (i, r) (combine (seq 0 (length rs)) rs) <-> i < length rs /\ r = nth i rs ([], [])).
    { intros i r. split.
      - intros I. apply (In_nth _ _ (0, ([], []))) in I as (p & Hp & Ep). rewrite combine_length, seq_length, Nat.min_id in Hp.
        rewrite combine_nth in Ep by apply seq_length. rewrite seq_nth in Ep by assumption. injection Ep as <- <-. cbn. auto.
      - intros (Hi & ->). replace (i, nth i rs ([], [])) with (nth i (combine (seq 0 (length rs)) rs) (0, ([], []))).
        + apply nth_In. rewrite combine_length, seq_length. lia.
        + rewrite combine_nth by apply seq_length. now rewrite seq_nth. }
    assert (HB : forall i j, i < length rs -> j < k -> buf (i, j) = f (i, j)).
    { intros i j Hi Hj. apply (pool_run_fun cell_eq cell_eq_spec _ _ _ f) with (c := (i, j)) in P.
      - apply P. exists (row_writes i (nth i rs ([], []))). split.
        + apply in_map_iff. exists (i, nth i rs ([], [])). split; [reflexivity|]. now apply HT.
        + unfold row_writes. apply in_map_iff. exists j. split; [reflexivity|]. apply in_seq. rewrite (proj1 (HR i Hi)). lia.
      - intros t c v It Iw. apply in_map_iff in It as ((i' & r) & <- & I). apply HT in I as (Hi' & ->).
        unfold row_writes in Iw. apply in_map_iff in Iw as (j' & Ej & _). injection Ej as <- <-. reflexivity. }
    symmetry. apply nth_ext with (d := ([], [])) (d' := ([], [])); [now rewrite map_length, seq_length|].
    intros i Hi. rewrite map_length, seq_length in Hi.
    rewrite nth_map_seq by exact Hi.
    destruct (HR i Hi) as (L1 & L2). destruct (nth i rs ([], [])) as (a & b) eqn:Er. cbn [fst snd] in L1, L2. f_equal.
    - rewrite <- L1. apply (nth_ext _ _ 0 0); [now rewrite map_length, seq_length|]. intros j Hj. rewrite map_length, seq_length in Hj.
      rewrite (nth_map_seq _ (length a) j 0) by exact Hj.
      rewrite HB by lia. unfold f. cbn [fst snd]. rewrite Er. reflexivity.
    - rewrite <- L2. apply (nth_ext _ _ nnan nnan); [now rewrite map_length, seq_length|]. intros j Hj. rewrite map_length, seq_length in Hj.
      rewrite (nth_map_seq _ (length b) j nnan) by exact Hj.
      rewrite HB by lia. unfold f. cbn [fst snd]. rewrite Er. reflexivity.
  Qed.
  Lemma pool_rows_ex k rows : exists R, pool_rows k rows R.
  Proof.
    destruct (mapM (fun r => r) rows) as [rs|e] eqn:E.
    - eexists. eapply pr_ok; [exact E|]. apply pool_run_exists.
    - destruct (mapM_raise_in _ _ _ E) as (a & I & ->). exists (Raise e). now constructor.
  Qed.
End ANN.
