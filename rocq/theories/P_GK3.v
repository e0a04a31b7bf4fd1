(** Goodman-Kruskal: range, symmetry, invariance, and the sparse index. *)
From Coq Require Import String.
From Coq Require Import ZArith List Arith Lia Bool Permutation Sorting Reals Lra.
From Flocq Require Import Core.Core IEEE754.BinarySingleNaN.
From Verif Require Import Py Num Arr Sort S_Neighbors S_GK M_IO M_GK P_F64 P_GK P_GK2.
Import ListNotations.
Local Open Scope nat_scope.

#[local] Instance vexp : Valid_exp (SpecFloat.fexp 53 1024) := fexp_correct 53 1024 prec53.

Lemma rnd_opp x : rnd (- x) = (- rnd x)%R.
Proof. unfold rnd. change (round_mode mode_NE) with ZnearestE. apply round_NE_opp. Qed.
Lemma rnd_abs1 x : (-1 <= x <= 1)%R -> (-1 <= rnd x <= 1)%R.
Proof.
  intros (H1 & H2). split.
  - replace (-1)%R with (rnd (-1)); [now apply rnd_le|].
    replace (-1)%R with (- (1))%R by ring. now rewrite rnd_opp, rnd_1.
  - rewrite <- rnd_1. now apply rnd_le.
Qed.

Lemma quot_correct a b : (Z.abs a <= b)%Z -> (0 < b <= 2 ^ 53)%Z ->
  is_finite (ndiv (V:=f64) (nofZ a) (nofZ b)) = true /\
  B2R (ndiv (V:=f64) (nofZ a) (nofZ b)) = rnd (IZR a / IZR b) /\
  (-1 <= IZR a / IZR b <= 1)%R.
Proof.
  intros Ha Hb. change (ndiv (V:=f64) (nofZ a) (nofZ b)) with (Bdiv mode_NE (f64_ofZ a) (f64_ofZ b)).
  destruct (f64_ofZ_exact a) as (Ea & Fa); [lia|]. destruct (f64_ofZ_exact b) as (Eb & Fb); [lia|].
  assert (Pb : (0 < IZR b)%R) by (apply IZR_lt; lia).
  assert (U : (-1 <= IZR a / IZR b <= 1)%R).
  { assert (H1 : (- IZR b <= IZR a <= IZR b)%R).
    { rewrite <- opp_IZR. split; apply IZR_le; lia. }
    split; apply (Rmult_le_reg_r (IZR b)); try assumption; unfold Rdiv;
      rewrite Rmult_assoc, Rinv_l by lra; lra. }
  pose proof (Bdiv_correct 53 1024 prec53 emax1024 mode_NE (f64_ofZ a) (f64_ofZ b)) as H.
  rewrite Eb in H. specialize (H ltac:(lra)). rewrite Ea in H. fold (rnd (IZR a / IZR b)) in H.
  rewrite Rlt_bool_true in H.
  - destruct H as (H1 & H2 & _). split; [now rewrite H2|]. split; assumption.
  - apply rnd_abs1 in U. pose proof bpow1024_big. apply Rabs_def1; lra.
Qed.

Lemma gamma_range qc qd : (Z.of_nat (qc + qd) <= 2 ^ 53)%Z ->
  nle (nofZ (-1)) (gamma (V:=f64) qc qd) = true /\ nle (gamma (V:=f64) qc qd) (nofZ 1) = true.
Proof.
  intros Hb. unfold gamma. destruct (Nat.eqb_spec (qc + qd) 0) as [E|E].
  - split; reflexivity.
  - destruct (quot_correct (Z.of_nat qc - Z.of_nat qd) (Z.of_nat (qc + qd))) as (F & EB & U); [lia|lia|].
    apply rnd_abs1 in U.
    destruct (f64_ofZ_exact (-1)) as (E1 & F1); [vm_compute; discriminate|].
    destruct (f64_ofZ_exact 1) as (E2 & F2); [vm_compute; discriminate|].
    split; (apply nle_B2R; [assumption|assumption|]); rewrite EB.
    + change (nofZ (-1)) with (f64_ofZ (-1)). rewrite E1. lra.
    + change (nofZ 1) with (f64_ofZ 1). rewrite E2. lra.
Qed.

Lemma gamma_neg qc qd : (Z.of_nat (qc + qd) <= 2 ^ 53)%Z ->
  neq (gamma (V:=f64) qc qd) (nopp (gamma qd qc)) = true.
Proof.
  intros Hb. unfold gamma. rewrite (Nat.add_comm qd qc).
  destruct (Nat.eqb_spec (qc + qd) 0) as [E|E]; [reflexivity|].
  destruct (quot_correct (Z.of_nat qc - Z.of_nat qd) (Z.of_nat (qc + qd))) as (F & EB & _); [lia|lia|].
  destruct (quot_correct (Z.of_nat qd - Z.of_nat qc) (Z.of_nat (qc + qd))) as (F' & EB' & _); [lia|lia|].
  set (x := ndiv (nofZ (Z.of_nat qc - _)) _) in *. set (y := ndiv (nofZ (Z.of_nat qd - _)) _) in *.
  rewrite (cl_eq _ _ _ f64_cmp). rewrite f2x_fin by assumption.
  rewrite f2x_fin by (simpl; rewrite is_finite_Bopp; assumption). simpl. rewrite B2R_Bopp, EB, EB'.
  destruct (Req_EM_T _ _) as [|n]; [reflexivity|]. exfalso. apply n.
  rewrite <- rnd_opp. f_equal. replace (Z.of_nat qc - Z.of_nat qd)%Z with (- (Z.of_nat qd - Z.of_nat qc))%Z by ring.
  rewrite opp_IZR. unfold Rdiv. ring.
Qed.

(** the counts depend only on the order of the values and on label equality *)
Lemma quadruples_ext n lab lab' P P' :
  (forall i j, i < n -> j < n -> (nth i lab 0 =? nth j lab 0)%Z = (nth i lab' 0 =? nth j lab' 0)%Z) ->
  (forall a b c d, a < b < n -> c < d < n -> P (a, b) (c, d) = P' (a, b) (c, d)) ->
  quadruples n lab P = quadruples n lab' P'.
Proof.
  intros HL HP. unfold quadruples. f_equal. apply filter_ext_in.
  intros ((a, b), (c, d)) H. apply in_prod_iff in H. destruct H as (H1 & H2).
  apply edges_spec in H1. apply edges_spec in H2. simpl. unfold within. simpl.
  rewrite !HL by lia. rewrite (HP a b c d) by assumption. reflexivity.
Qed.

(** ** reference implementations meet the contracts *)
Section Ref.
  Context {V : Type} {N : Num V} {toX : V -> xr} (CL : CmpLaws V N toX).

  Definition srel (l : list V) (i j : nat) : Prop :=
    sle (vat l i) (vat l j) = true /\ (sle (vat l j) (vat l i) = true -> i < j).

  Lemma ins_stable (l : list V) x p : StronglySorted (srel l) p -> (forall y, In y p -> x < y) ->
    StronglySorted (srel l) (ins l x p).
  Proof.
    induction p as [|y p IH]; simpl; intros H Hx; [repeat constructor|].
    inversion H as [|? ? Hs Hf]; subst. rewrite Forall_forall in Hf.
    destruct (sle (vat l x) (vat l y)) eqn:E.
    - constructor; [assumption|]. apply Forall_forall. intros z Hz. split.
      + destruct Hz as [<-|Hz]; [assumption|]. eapply (sle_trans CL); [exact E|]. now apply Hf.
      + intros _. apply Hx. exact Hz.
    - constructor; [apply IH; auto|]. apply Forall_forall. intros z Hz.
      eapply Permutation_in in Hz; [|apply ins_perm]. destruct Hz as [<-|Hz]; [|auto].
      split; [|congruence]. destruct (sle_total CL (vat l x) (vat l y)); congruence.
  Qed.

  Lemma isort_stable (l : list V) a k : StronglySorted (srel l) (isort l (seq a k)).
  Proof.
    revert a. induction k as [|k IH]; intros a; simpl; [constructor|].
    apply ins_stable; [apply IH|]. intros y Hy.
    eapply Permutation_in in Hy; [|apply isort_perm]. apply in_seq in Hy. lia.
  Qed.

  Lemma ref_argsort_stable : stable_ok (ref_argsort (V:=V)).
  Proof.
    intros l. split; [apply (ref_argsort_ok CL)|]. intros a b Hab Hb.
    pose proof (isort_stable l 0 (length l)) as H.
    apply (StronglySorted_nth _ _ 0 H a b Hab).
    now rewrite (Permutation_length (isort_perm l _)), seq_length.
  Qed.

  Lemma ref_sort_ok : sort_ok (ref_sort (V:=V)).
  Proof.
    intros l. destruct (ref_argsort_ok CL l) as (Hp & Hs). split.
    - unfold ref_sort. transitivity (map (vat l) (seq 0 (length l))); [now apply Permutation_map|].
      now rewrite map_vat_seq.
    - intros a b Hab Hb. unfold ref_sort.
      rewrite !vat_map by (rewrite (perm_seq_length _ _ Hp); lia). auto.
  Qed.
End Ref.

(** ** the sparse index *)
Section Sp.
  Context {V : Type} {N : Num V} {toX : V -> xr} (CL : CmpLaws V N toX).

  Definition isz (v : V) : bool := neq v n0.
  Definition nz (v : V) : bool := negb (neq v n0).

  Lemma nonneg_cases (v : V) : nle n0 v = true ->
    ok v /\ ((isz v = true /\ forall o, nle n0 o = true -> nlt o v = false /\ neq v o = isz o) \/
             (isz v = false /\ forall o, nle n0 o = true -> isz o = true -> nlt o v = true /\ neq v o = false)).
  Proof.
    unfold ok, isz.
    rewrite (cl_nan _ _ _ CL), !(cl_eq _ _ _ CL), !(cl_le _ _ _ CL), !(cl_0 _ _ _ CL).
    intros H. split; [generalize dependent (toX v); intros; xr_tac|].
    destruct (xeq (toX v) (XFin 0)) eqn:E; [left|right]; (split; [reflexivity|]);
      intros o; rewrite ?(cl_lt _ _ _ CL), ?(cl_eq _ _ _ CL), ?(cl_le _ _ _ CL), ?(cl_0 _ _ _ CL);
      generalize dependent (toX v); generalize dependent (toX o); intros; xr_tac; auto.
  Qed.

  Definition zeros (l : list V) : nat := cnt isz l.

  Lemma nonzero_len (l : list V) : length (nonzero l) + zeros l = length l.
  Proof. unfold nonzero, zeros. fold (cnt nz l). apply (cnt_neg isz). Qed.

  Lemma nonneg_npairs_lt (l1 l2 : list V) :
    Forall (fun v => nle n0 v = true) l1 -> Forall (fun v => nle n0 v = true) l2 ->
    npairs (fun s o => nlt o s) l1 l2 =
    sum_nat (map (fun s => zeros l2 + cnt (fun o => nlt o s) (nonzero l2)) (nonzero l1)).
  Proof.
    intros H1 H2. unfold npairs, nonzero at 2. rewrite sum_nat_filter. apply sum_nat_ext.
    intros s Hs. rewrite Forall_forall in H1, H2.
    destruct (nonneg_cases s (H1 s Hs)) as (_ & [(Z & C)|(Z & C)]); unfold isz in Z; rewrite Z; simpl.
    - apply cnt_zero. intros o Ho. now apply C, H2.
    - unfold zeros, nonzero. rewrite cnt_filter. clear - H2 C.
      induction l2 as [|o l2 IH]; [reflexivity|]. rewrite !cnt_cons.
      rewrite IH by (intros; apply H2; simpl; auto).
      change (isz o) with (neq o n0). destruct (neq o n0) eqn:E; simpl; [|lia].
      destruct (C o (H2 o (or_introl eq_refl)) E) as (-> & _). lia.
  Qed.

  Lemma nonneg_npairs_eq (l1 l2 : list V) :
    Forall (fun v => nle n0 v = true) l1 -> Forall (fun v => nle n0 v = true) l2 ->
    npairs neq l1 l2 = npairs neq (nonzero l1) (nonzero l2) + zeros l1 * zeros l2.
  Proof.
    intros H1 H2. unfold npairs, nonzero at 2. rewrite sum_nat_filter.
    unfold zeros at 1. rewrite cnt_sum, <- sum_nat_mul, <- sum_nat_map_add. apply sum_nat_ext.
    intros s Hs. rewrite Forall_forall in H1, H2.
    destruct (nonneg_cases s (H1 s Hs)) as (_ & [(Z & C)|(Z & C)]); rewrite Z; unfold isz in Z; rewrite Z; simpl.
    - rewrite Nat.add_0_r. apply cnt_ext. intros o Ho. now apply C, H2.
    - rewrite Nat.add_0_r. unfold nonzero. rewrite cnt_filter. apply cnt_ext. intros o Ho.
      destruct (neq o n0) eqn:E; simpl; [|reflexivity]. now apply C, E; apply H2.
  Qed.

  (** all upper-triangle values are >= 0 (NaN excluded) *)
  Definition upper_nonneg (S : arr2 V) : Prop :=
    forall i j, i < j < nrow S -> nle n0 (at2 S i j) = true.
  Definition upper_ok (S : arr2 V) : Prop := forall i j, i < j < nrow S -> ok (at2 S i j).

  Lemma cells_Forall (P : V -> Prop) (S : arr2 V) cells :
    (forall i j, i < j < nrow S -> P (at2 S i j)) ->
    (forall e, In e cells -> In e (edges (nrow S))) -> Forall P (vals S cells).
  Proof.
    intros H Hc. apply Forall_forall. intros v Hv. apply in_map_iff in Hv.
    destruct Hv as ((i, j) & <- & He). apply Hc, edges_spec in He. now apply H.
  Qed.
  Lemma triu_In n m e : In e (triu_cells n m) -> In e (edges n).
  Proof. rewrite triu_edges. intros H. now apply filter_In in H. Qed.
  Lemma outer_In lab e : In e (outer lab) -> In e (edges (length lab)).
  Proof. intros H. now apply filter_In in H. Qed.

  Lemma npairs_vals (S : arr2 V) (p : V -> V -> bool) c1 c2 :
    npairs p (vals S c1) (vals S c2) =
    sum_nat (map (fun e => cnt (fun o => p (edge_val S e) (edge_val S o)) c2) c1).
  Proof.
    unfold npairs, vals. rewrite map_map. apply sum_nat_ext. intros e _. now rewrite cnt_map.
  Qed.

  Lemma sgk_class_spec argsort sort S lab (heur : bool) Q c : stable_ok argsort -> sort_ok sort ->
    upper_nonneg S -> length lab = nrow S ->
    (heur = true -> npairs neq (nonzero (vals S (class_cells lab c))) (nonzero (vals S (outer lab))) = 0) ->
    sgk_class argsort sort S lab false heur Q c =
    if 1 <? count_if (fun i => (nth i lab 0 =? c)%Z) (length lab)
    then (nadd (fst Q) (nofZ (Z.of_nat (ccN S lab c))), nadd (snd Q) (nofZ (Z.of_nat (dcN S lab c))))
    else Q.
  Proof.
    intros HA HSo HS E Hheur. unfold sgk_class. rewrite outer_cells. fold (class_cells lab c).
    destruct (1 <? count_if _ _) eqn:Ec; [|reflexivity]. cbv zeta.
    set (l1 := vals S (class_cells lab c)) in *. set (l2 := vals S (outer lab)) in *.
    assert (P1 : Forall (fun v => nle n0 v = true) l1).
    { apply cells_Forall; [exact HS|]. intros e He. rewrite <- E. eapply triu_In; exact He. }
    assert (P2 : Forall (fun v => nle n0 v = true) l2).
    { apply cells_Forall; [exact HS|]. intros e He. rewrite <- E. now apply outer_In. }
    assert (K1 : Forall ok l1) by (eapply Forall_impl; [|exact P1]; intros v Hv; now apply nonneg_cases).
    assert (K2 : Forall ok l2) by (eapply Forall_impl; [|exact P2]; intros v Hv; now apply nonneg_cases).
    assert (O1 : Forall ok (nonzero l1)) by (apply incl_Forall with l1; [apply incl_filter|assumption]).
    assert (O2 : Forall ok (nonzero l2)) by (apply incl_Forall with l2; [apply incl_filter|assumption]).
    assert (L1 : length (class_cells lab c) = length l1) by (unfold l1, vals; now rewrite map_length).
    assert (L2 : length (outer lab) = length l2) by (unfold l2, vals; now rewrite map_length).
    rewrite L1, L2. pose proof (nonzero_len l1) as Z1. pose proof (nonzero_len l2) as Z2.
    rewrite (scan_correct CL) by assumption.
    assert (Ecc : zsum (map (fun s => (Z.of_nat (length (nonzero l2)) + (Z.of_nat (length l2) - Z.of_nat (length (nonzero l2)))
          - Z.of_nat (length (nonzero l2)) + Z.of_nat (cnt (fun o => nlt o s) (nonzero l2)))%Z) (nonzero l1)) = Z.of_nat (ccN S lab c)).
    { transitivity (Z.of_nat (npairs (fun s o => nlt o s) l1 l2)).
      - rewrite nonneg_npairs_lt by assumption. rewrite <- zsum_nat. apply zsum_ext. intros; lia.
      - f_equal. apply npairs_vals. }
    rewrite Ecc.
    assert (Eq : (if heur then 0%Z else gk_equi sort (nonzero l1 ++ nonzero l2) (length (nonzero l1))) =
                 Z.of_nat (npairs neq (nonzero l1) (nonzero l2))).
    { destruct heur; [now rewrite Hheur|]. now apply (equi_correct CL). }
    rewrite Eq.
    pose proof (npairs_tri CL l1 l2 K1 K2) as T.
    rewrite nonneg_npairs_eq in T by assumption.
    assert (E1 : npairs (fun s o => nlt o s) l1 l2 = ccN S lab c) by apply npairs_vals.
    assert (E2 : npairs nlt l1 l2 = dcN S lab c) by apply npairs_vals.
    rewrite E1, E2 in T. do 3 f_equal.
    replace (Z.of_nat (length (nonzero l1)) + (Z.of_nat (length l1) - Z.of_nat (length (nonzero l1))))%Z
      with (Z.of_nat (length l1)) by lia.
    replace (Z.of_nat (length (nonzero l2)) + (Z.of_nat (length l2) - Z.of_nat (length (nonzero l2))))%Z
      with (Z.of_nat (length l2)) by lia.
    replace (Z.of_nat (length l1) - Z.of_nat (length (nonzero l1)))%Z with (Z.of_nat (zeros l1)) by lia.
    replace (Z.of_nat (length l2) - Z.of_nat (length (nonzero l2)))%Z with (Z.of_nat (zeros l2)) by lia.
    rewrite <- !Nat2Z.inj_mul. lia.
  Qed.

  (** zero_mv: only quadruples of non-zero values count *)
  Definition cc_mv (S : arr2 V) lab c : nat :=
    sum_nat (map (fun e => cnt (fun o => nz (edge_val S e) && nz (edge_val S o)
        && nlt (edge_val S o) (edge_val S e)) (outer lab)) (class_cells lab c)).
  Definition dc_mv (S : arr2 V) lab c : nat :=
    sum_nat (map (fun e => cnt (fun o => nz (edge_val S e) && nz (edge_val S o)
        && nlt (edge_val S e) (edge_val S o)) (outer lab)) (class_cells lab c)).

  Lemma npairs_nonzero (S : arr2 V) (p : V -> V -> bool) c1 c2 :
    npairs p (nonzero (vals S c1)) (nonzero (vals S c2)) =
    sum_nat (map (fun e => cnt (fun o => nz (edge_val S e) && nz (edge_val S o)
        && p (edge_val S e) (edge_val S o)) c2) c1).
  Proof.
    unfold npairs, nonzero at 2. rewrite sum_nat_filter. unfold vals at 2. rewrite map_map.
    apply sum_nat_ext. intros e _. fold (edge_val S e). fold (nz (edge_val S e)).
    destruct (nz (edge_val S e)); simpl.
    - unfold nonzero. rewrite cnt_filter. unfold vals. rewrite cnt_map. reflexivity.
    - symmetry. apply cnt_zero. reflexivity.
  Qed.

  Lemma sgk_class_mv argsort sort S lab Q c : stable_ok argsort -> sort_ok sort ->
    upper_ok S -> length lab = nrow S ->
    sgk_class argsort sort S lab true false Q c =
    if 1 <? count_if (fun i => (nth i lab 0 =? c)%Z) (length lab)
    then (nadd (fst Q) (nofZ (Z.of_nat (cc_mv S lab c))), nadd (snd Q) (nofZ (Z.of_nat (dc_mv S lab c))))
    else Q.
  Proof.
    intros HA HSo HS E. unfold sgk_class. rewrite outer_cells. fold (class_cells lab c).
    destruct (1 <? count_if _ _) eqn:Ec; [|reflexivity]. cbv zeta.
    set (l1 := vals S (class_cells lab c)) in *. set (l2 := vals S (outer lab)) in *.
    assert (K1 : Forall ok l1).
    { apply cells_Forall; [exact HS|]. intros e He. rewrite <- E. eapply triu_In; exact He. }
    assert (K2 : Forall ok l2).
    { apply cells_Forall; [exact HS|]. intros e He. rewrite <- E. now apply outer_In. }
    assert (O1 : Forall ok (nonzero l1)) by (apply incl_Forall with l1; [apply incl_filter|assumption]).
    assert (O2 : Forall ok (nonzero l2)) by (apply incl_Forall with l2; [apply incl_filter|assumption]).
    rewrite (scan_dense CL) by assumption. rewrite (equi_correct CL) by assumption.
    pose proof (npairs_tri CL (nonzero l1) (nonzero l2) O1 O2) as T.
    assert (E1 : npairs (fun s o => nlt o s) (nonzero l1) (nonzero l2) = cc_mv S lab c)
      by apply (npairs_nonzero S (fun s o => nlt o s)).
    assert (E2 : npairs nlt (nonzero l1) (nonzero l2) = dc_mv S lab c)
      by apply (npairs_nonzero S nlt).
    rewrite E1, E2 in T. rewrite E1. do 3 f_equal. lia.
  Qed.
End Sp.

Lemma sgk_checks (D : arr2 f64) (lab : list Z) metric : nrow D = ncol D -> length lab = nrow D ->
  valid_metric metric = true ->
  check_distance_matrix_shape (Sparse (nrow D) (ncol D)) = Ok tt /\
  check_distance_matrix_shape_fits_labels (Sparse (nrow D) (ncol D)) (Dense [length lab]) = Ok tt /\
  check_valid_metric_parameter metric = Ok tt.
Proof.
  intros H1 H2 H3. destruct (gk_checks D lab metric H1 H2 H3) as (C1 & C2 & C3). auto.
Qed.

Lemma sgk_index_spec argsort sort (S : arr2 f64) lab metric (heur : bool) :
  stable_ok argsort -> sort_ok sort -> upper_nonneg S -> nrow S = ncol S -> length lab = nrow S ->
  valid_metric metric = true -> (Z.of_nat (n_smaller S lab + n_larger S lab) <= 2 ^ 53)%Z ->
  (heur = true -> forall c, npairs neq (nonzero (vals S (class_cells lab c))) (nonzero (vals S (outer lab))) = 0) ->
  sparse_goodman_kruskal_index argsort sort S lab metric false heur =
  Ok (if is_sim metric then gamma (n_larger S lab) (n_smaller S lab)
      else gamma (n_smaller S lab) (n_larger S lab)).
Proof.
  intros HA HSo HS Hsq HL Hv Hb Hh. unfold sparse_goodman_kruskal_index.
  destruct (sgk_checks S lab metric Hsq HL Hv) as (C1 & C2 & C3). rewrite C1, C2, C3. cbn [bind].
  f_equal. rewrite <- (ccN_total S lab) in * by auto. rewrite <- (dcN_total S lab) in * by auto.
  change (n0, n0) with (nofZ (V:=f64) (Z.of_nat 0), nofZ (V:=f64) (Z.of_nat 0)).
  rewrite (fold_counts _ (ccN S lab) (dcN S lab)
      (fun c => 1 <? count_if (fun i => (nth i lab 0 =? c)%Z) (length lab))).
  - simpl Nat.add. rewrite gamma_correct by (assumption || lia). reflexivity.
  - intros Q c. apply (sgk_class_spec f64_cmp); auto.
  - intros c Hc. now apply small_ccN.
  - lia.
Qed.

Lemma sgk_index_mv argsort sort (S : arr2 f64) lab metric :
  stable_ok argsort -> sort_ok sort -> upper_ok S -> nrow S = ncol S -> length lab = nrow S ->
  valid_metric metric = true ->
  let L := quadruples (nrow S) lab (fun e o => nz (edge_val S e) && nz (edge_val S o)
             && nlt (edge_val S o) (edge_val S e)) in
  let M := quadruples (nrow S) lab (fun e o => nz (edge_val S e) && nz (edge_val S o)
             && nlt (edge_val S e) (edge_val S o)) in
  (Z.of_nat (M + L) <= 2 ^ 53)%Z ->
  sparse_goodman_kruskal_index argsort sort S lab metric true false =
  Ok (if is_sim metric then gamma L M else gamma M L).
Proof.
  intros HA HSo HS Hsq HL Hv L M Hb. unfold sparse_goodman_kruskal_index.
  destruct (sgk_checks S lab metric Hsq HL Hv) as (C1 & C2 & C3). rewrite C1, C2, C3. cbn [bind].
  f_equal.
  assert (EL : sum_nat (map (cc_mv S lab) (unique_labels lab)) = L).
  { unfold L. rewrite <- HL, quad_sum. unfold cc_mv, class_cells.
    apply (class_sum lab (fun e => cnt (fun o => nz (edge_val S e) && nz (edge_val S o)
        && nlt (edge_val S o) (edge_val S e)) (outer lab))). }
  assert (EM : sum_nat (map (dc_mv S lab) (unique_labels lab)) = M).
  { unfold M. rewrite <- HL, quad_sum. unfold dc_mv, class_cells.
    apply (class_sum lab (fun e => cnt (fun o => nz (edge_val S e) && nz (edge_val S o)
        && nlt (edge_val S e) (edge_val S o)) (outer lab))). }
  change (n0, n0) with (nofZ (V:=f64) (Z.of_nat 0), nofZ (V:=f64) (Z.of_nat 0)).
  rewrite (fold_counts _ (cc_mv S lab) (dc_mv S lab)
      (fun c => 1 <? count_if (fun i => (nth i lab 0 =? c)%Z) (length lab))).
  - simpl Nat.add. rewrite EL, EM. rewrite gamma_correct by (assumption || lia). reflexivity.
  - intros Q c. now apply (sgk_class_mv f64_cmp).
  - intros c Hc. unfold cc_mv, dc_mv, class_cells. rewrite (small_class _ _ Hc). auto.
  - lia.
Qed.
