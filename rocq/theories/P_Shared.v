(** Proofs about the memory the approximate estimator shares with its caller. *)
From Coq Require Import String.
From Coq Require Import ZArith List Arith Lia Bool.
From Verif Require Import Py Num Arr Sort Conc M_LS M_Dist M_HubnessClass M_Approx M_ApproxPredict M_Lifecycle S_Lifecycle M_Shared S_Shared.
From Verif Require Import P_Approx P_ApproxFixed P_ApproxPredict P_Lifecycle.
Import ListNotations.
Local Open Scope nat_scope.
Local Open Scope py_scope.

Section Shared.
  Context {V : Type} {N : Num V}.
  Variable vsum : list V -> V.
  Variable sdist : string -> nat -> (nat -> V) -> (nat -> V) -> V.
  Variables (vexp : V -> V) (vsf : V -> V -> V -> V).
  Variable vstore : f64 -> V.
  Variable part : list V -> list nat -> list V.
  Variable argpart : list V -> list nat -> list nat.
  Variable P : par.
  Notation sstep := (sstep vsum sdist vexp vsf vstore part argpart P).
  Notation srun := (srun vsum sdist vexp vsf vstore part argpart P).
  Notation since_fit := (since_fit vsum sdist vexp vsf vstore part argpart P).
  Notation transforms := (transforms vsum sdist vexp vsf vstore part argpart P).
  Notation predicts := (predicts vsum sdist vexp vsf vstore part argpart P).
  Notation one_shot := (one_shot vsum sdist vexp vsf vstore part argpart P).
  Notation core_fit := (core_fit vsum sdist part argpart P).
  Notation core_transform := (core_transform vsum sdist vexp vsf vstore part argpart P).

  Definition same_shapes (m0 m : @mem V) : Prop :=
    (forall r, nrow (arr m r) = nrow (arr m0 r) /\ ncol (arr m r) = ncol (arr m0 r)) /\
    (forall l, length (lab m l) = length (lab m0 l)).

  Lemma sstep_keeps m o c m' o' a : no_fit_call c -> sstep (m, o) c (m', o') a ->
    o_ns o' = o_ns o /\ o_n o' = o_n o /\ o_fit o' = o_fit o /\ same_shapes m m'.
  Proof.
    intros K H. unfold same_shapes. inversion H; subst; cbn; auto; try (exfalso; exact K).
    all: repeat split; auto; intros; unfold set_at.
    all: match goal with |- context [Nat.eqb ?a ?b] => destruct (Nat.eqb_spec a b); subst; auto end.
  Qed.
  Lemma srun_keeps m o h m' o' : Forall no_fit_call h -> srun (m, o) h (m', o') ->
    o_ns o' = o_ns o /\ o_n o' = o_n o /\ o_fit o' = o_fit o /\ same_shapes m m'.
  Proof.
    intros K H. remember (m, o) as st eqn:E1. remember (m', o') as st' eqn:E2. revert m' o' E2.
    induction H as [|l c a st1 st2 H IH S]; intros m' o' E2.
    - assert (m' = m /\ o' = o) as (-> & ->) by (rewrite E1 in E2; apply pair_equal_spec in E2; intuition congruence).
      unfold same_shapes. repeat split; auto.
    - apply Forall_app in K as (K1 & K2). inversion K2; subst. destruct st1 as (m1, o1).
      destruct (IH K1 _ _ eq_refl) as (A & B & C & D1 & D2). destruct (sstep_keeps _ _ _ _ _ _ H2 S) as (A' & B' & C' & E1' & E2').
      repeat split; try congruence.
      + destruct (D1 r), (E1' r). congruence.
      + destruct (D1 r), (E1' r). congruence.
  Qed.

  Lemma since_fit_state m0 ns ind x y m o : since_fit m0 ns ind x y m o ->
    fit_check (arr m0 x) = Ok tt /\ same_shapes m0 m /\
    exists f, core_fit ns ind (arr m0 x) (option_map (lab m0) y) = Ok f /\
      o_ns o = fit_ns P ns (nrow (arr m0 x)) /\ o_n o = Some (nrow (arr m0 x)) /\ o_fit o = Some (stored_fit P m0 x y f).
  Proof.
    intros (o0 & o1 & h & En & F & H & K). destruct (srun_keeps _ _ _ _ _ K H) as (A & B & C & D).
    inversion F as [mm oo i xx yy s' r DF| | | | | |]; subst. inversion DF as [| |f FC CF]; subst. cbn in *.
    split; [exact FC|]. split; [exact D|]. exists f. split; [exact CF|]. auto.
  Qed.

  Lemma core_ext ns f g Z r : f_X f = f_X g -> f_extra f = f_extra g -> core_transform ns f Z r -> core_transform ns g Z r.
  Proof.
    intros EX EE H. destruct H as [Hh|r Hh H|mu sd Hh H|nic rr Hh H|dc Hh H]; rewrite EX in *.
    - now apply ct_none.
    - now apply ct_mp.
    - apply ct_mpg; [exact Hh|congruence].
    - apply ct_ls; [exact Hh|congruence].
    - apply ct_dsl; [exact Hh|congruence].
  Qed.

  Lemma rows_all (X : arr2 V) n i f : i < n -> at2 (rows_at X (seq 0 n)) i f = at2 X i f.
  Proof. intros H. cbn. now rewrite seq_nth by exact H. Qed.
  Lemma check_rows (X : arr2 V) : check_array (rows_at X (seq 0 (nrow X))) = check_array X.
  Proof.
    unfold check_array. replace (nrow (rows_at X (seq 0 (nrow X)))) with (nrow X) by (cbn; now rewrite seq_length).
    change (ncol (rows_at X (seq 0 (nrow X)))) with (ncol X).
    enough (E : forallb (fun i => forallb (fun f => nisfin (at2 (rows_at X (seq 0 (nrow X))) i f)) (seq 0 (ncol X))) (seq 0 (nrow X)) =
                forallb (fun i => forallb (fun f => nisfin (at2 X i f)) (seq 0 (ncol X))) (seq 0 (nrow X))).
    { rewrite E. reflexivity. }
    assert (G : forall l, (forall i, In i l -> i < nrow X) ->
      forallb (fun i => forallb (fun f => nisfin (at2 (rows_at X (seq 0 (nrow X))) i f)) (seq 0 (ncol X))) l =
      forallb (fun i => forallb (fun f => nisfin (at2 X i f)) (seq 0 (ncol X))) l).
    { induction l as [|i l IH]; intros H; [reflexivity|]. cbn [forallb]. rewrite IH by (intros; apply H; now right). f_equal.
      assert (Hi : i < nrow X) by (apply H; now left). clear - Hi. induction (seq 0 (ncol X)) as [|f l IH]; [reflexivity|].
      cbn [forallb]. rewrite IH, rows_all by exact Hi. reflexivity. }
    apply G. intros i H. apply in_seq in H. lia.
  Qed.
  Lemma check_array_e (X : arr2 V) e : check_array X = Raise e -> e = ValueError.
  Proof. unfold check_array. destruct (_ || _); cbn; congruence. Qed.

  Lemma deref_stored m0 m ns ind x y f : same_shapes m0 m ->
    core_fit ns ind (arr m0 x) (option_map (lab m0) y) = Ok f ->
    let van := vantage (the_sample P ind) (nrow (arr m0 x)) in
    let g := deref m (stored_fit P m0 x y f) in
    f_X g = rows_at (data_seen P m0 m x) van /\ f_ind g = van /\ f_extra g = f_extra f /\ f_y g = option_map (fun l => map (fun a => nth a (labels_seen P m0 m l) 0%Z) van) y.
  Proof.
    intros SH CF. destruct (core_fit_ok _ _ _ _ _ _ _ _ _ _ CF) as (EX & EI & EY & _). cbv zeta.
    unfold deref, stored_fit, data_seen, labels_seen, shares_data, shares_labels. cbn [t_X t_y t_ind t_extra f_X f_y f_ind f_extra].
    rewrite EX, EI, EY. repeat split.
    - destruct (p_kind P); [destruct (arr32 m0 x)|..]; reflexivity.
    - destruct (p_kind P), y as [l|]; cbn [option_map]; try reflexivity. destruct (lab32 m0 l); reflexivity.
  Qed.

  (** what transform answers, in terms of the attributes *)
  Lemma transforms_core m0 ns ind x y m o f q r : same_shapes m0 m -> good_sample ind (arr m0 x) ->
    core_fit ns ind (arr m0 x) (option_map (lab m0) y) = Ok f ->
    o_n o = Some (nrow (arr m0 x)) -> o_fit o = Some (stored_fit P m0 x y f) ->
    transforms m o q (of_result r) <->
    (sound m o = Ok tt /\ core_transform (o_ns o) (deref m (stored_fit P m0 x y f)) (arr m q) r \/
     exists e, sound m o = Raise e /\ r = Raise e).
  Proof.
    intros SH G CF En Ef. destruct (deref_stored _ m _ _ _ _ _ SH CF) as (DX & DI & DE & DY). cbv zeta in *.
    set (g := deref m (stored_fit P m0 x y f)) in *.
    assert (Vf : e_fit (view m o) = Some g) by (unfold view; cbn; rewrite Ef; reflexivity).
    assert (Vn : e_n (view m o) = Some (nrow (arr m0 x))) by (unfold view; cbn; exact En).
    assert (SP : forall D, core_transform (o_ns o) g (arr m q) (Ok D) -> exists S, sparse_of P D g (nrow (arr m0 x)) = Ok S).
    { intros D H. apply core_shape in H as (_ & H). apply sparse_fits.
      - rewrite H, DX, DI. reflexivity.
      - intros K j I. rewrite DI in I. unfold the_sample in I. destruct (p_kind P); [congruence| |]; apply G, I. }
    assert (TOT : exists r', core_transform (o_ns o) g (arr m q) r').
    { destruct (core_total vsum sdist vexp vsf vstore part argpart P _ _ _ _ _ (o_ns o) (arr m q) CF) as (r0 & H).
      destruct H as [Hh|r1 Hh H|mu sd Hh H|nic rr Hh H|dc Hh H].
      - eexists. now apply ct_none.
      - destruct (transform_mp_ex sdist vstore (p_metric P) (o_ns o) (p_jobs P) (f_X g) (arr m q)) as (r2 & H2). exists r2. now apply ct_mp.
      - eexists. eapply ct_mpg; [exact Hh|]. rewrite DE. exact H.
      - eexists. eapply ct_ls; [exact Hh|]. rewrite DE. exact H.
      - eexists. eapply ct_dsl; [exact Hh|]. rewrite DE. exact H. }
    split.
    - intros (st & H). remember (of_result r) as oc eqn:Eo. inversion H as [|m1 o1 q1 s' r' SD DT| m1 o1 q1 e SD | | | |]; subst.
      + left. split; [exact SD|]. destruct r as [D|e]; cbn in DT.
        * assert (Q : exists s', do_transform vsum sdist vexp vsf vstore part argpart P (view m o) (arr m q) s' (Done D)) by eauto.
          apply (transform_done _ _ _ _ _ _ _ _ (view m o) g _ _ _ Vf Vn) in Q as (_ & Q & _). exact Q.
        * assert (Q : exists s', do_transform vsum sdist vexp vsf vstore part argpart P (view m o) (arr m q) s' (Failed e)) by eauto.
          apply (transform_failed _ _ _ _ _ _ _ _ (view m o) g _ _ _ Vf Vn) in Q as [C|(C & [Q|(D & Q & E)])].
          -- destruct TOT as (r' & TOT). rewrite <- (core_bad _ _ _ _ _ _ _ _ _ _ _ _ _ C TOT). exact TOT.
          -- exact Q.
          -- destruct (SP D Q) as (S & E'). congruence.
      + right. exists e. split; [exact SD|]. destruct r; cbn in *; congruence.
    - intros [(SD & H)|(e & SD & ->)].
      + assert (Q : exists s', do_transform vsum sdist vexp vsf vstore part argpart P (view m o) (arr m q) s' (of_result r)).
        { destruct r as [D|e]; cbn [of_result].
          - apply (transform_done _ _ _ _ _ _ _ _ (view m o) g _ _ _ Vf Vn). split; [|split; [exact H|apply SP, H]].
            destruct (check_array (arr m q)) as [[]|e] eqn:C; [reflexivity|]. discriminate (core_bad _ _ _ _ _ _ _ _ _ _ _ _ _ C H).
          - apply (transform_failed _ _ _ _ _ _ _ _ (view m o) g _ _ _ Vf Vn).
            destruct (check_array (arr m q)) as [[]|e'] eqn:C; [right; auto|left].
            apply (core_bad _ _ _ _ _ _ _ _ _ _ _ _ _ C) in H. congruence. }
        destruct Q as (s' & Q). eexists. eapply z_transform; eassumption.
      + eexists. apply z_transform_bad. exact SD.
  Qed.
End Shared.
