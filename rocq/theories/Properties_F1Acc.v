(** C187: the F measures in float64 — how far they are from the exact values, when
    they are exactly 1, and what comparing two of them says.

    [f1_value t] (Properties_KNN) is the exact F1 of a table, 2TP / (2TP + FP + FN),
    with 0 for TP = 0.  The program computes it from rounded precision and recall. *)
From Coq Require Import ZArith Reals Lra Lia Bool List Arith.
From Flocq Require Import Core BinarySingleNaN.
From Verif Require Import Py Num Arr M_KNN P_F64 P_GK2 P_F1 P_LSAcc P_GKAcc P_F1Acc Properties_KNN.
Import ListNotations.
Local Open Scope R_scope.

Lemma u53_def : u53 = bpow radix2 (-53). Proof. reflexivity. Qed.
Lemma u16 : 2 * (INR 8 * u53) = bpow radix2 (-49).
Proof.
  rewrite u53_def. replace (INR 8) with 8 by (simpl; lra).
  replace (2 * (8 * bpow radix2 (-53))) with (bpow radix2 4 * bpow radix2 (-53)).
  - rewrite <- bpow_plus. reflexivity.
  - change (bpow radix2 4) with 16. ring.
Qed.

Theorem C187_f1_error : forall t : tab, (Z.of_nat (tp t + fp t + fn t) <= 2 ^ 53)%Z ->
  Rabs (B2R (f1_score (V:=f64) t) - f1_value t) <= bpow radix2 (-49) * f1_value t.
Proof.
  intros t Ht. rewrite <- u16. apply pw_abs; [apply f1_value_nn| |now apply f1_pw].
  replace (INR 8) with 8 by (simpl; lra). pose proof u_bounds. lra.
Qed.

(** 1.0 is reached for a perfect table and for no other *)
Lemma f1_one (t : tab) : tp t <> 0%nat -> fp t = 0%nat -> fn t = 0%nat -> (Z.of_nat (tp t) <= 2 ^ 53)%Z ->
  B2R (f1_score (V:=f64) t) = 1.
Proof.
  intros E Ep En Hb. unfold f1_score. rewrite (proj2 (Nat.eqb_neq _ _) E). rewrite Ep, En, Nat.add_0_r. cbv zeta.
  destruct (frac_correct (tp t) (tp t)) as ((Fp & _ & _) & E1); [lia|lia|lia|].
  set (p := ndiv (V:=f64) (nofnat (tp t)) (nofnat (tp t))) in *.
  assert (R1 : forall z, (0 <= z <= 2 ^ 53)%Z -> rnd (IZR z) = IZR z) by (intros z Hz; apply Z_in_range; lia).
  assert (V1 : B2R p = 1).
  { rewrite E1. replace (INR (tp t) / INR (tp t)) with (IZR 1); [apply R1; lia|].
    unfold Rdiv. rewrite Rinv_r; [reflexivity|now apply not_0_INR]. }
  destruct (f64_ofZ_exact 2) as (E2 & F2); [vm_compute; discriminate|]. change (nofZ 2) with (f64_ofZ 2).
  destruct (f_mul (f64_ofZ 2) p) as (Fm & Em); [exact F2|exact Fp| |].
  { rewrite E2, V1. apply (nn_below _ 2); [lra|lia]. }
  rewrite E2, V1, Rmult_1_r, (R1 2%Z) in Em by lia. set (m := nmul (f64_ofZ 2) p) in *.
  destruct (f_mul m p) as (Fq & Eq); [exact Fm|exact Fp| |].
  { rewrite Em, V1. apply (nn_below _ 2); [lra|lia]. }
  rewrite Em, V1, Rmult_1_r, (R1 2%Z) in Eq by lia.
  destruct (f_add p p) as (Fs & Es); [exact Fp|exact Fp| |].
  { rewrite V1. apply (nn_below _ 2); [lra|lia]. }
  rewrite V1 in Es. replace (1 + 1) with (IZR 2) in Es by (simpl; lra). rewrite (R1 2%Z) in Es by lia.
  destruct (f_div (nmul m p) (nadd p p)) as (Fd & Ed); [exact Fq|rewrite Es; lra| |].
  { rewrite Eq, Es. apply (nn_below _ 1); [lra|lia]. }
  rewrite Ed, Eq, Es. replace (2 / 2) with (IZR 1) by (simpl; lra). apply R1. lia.
Qed.

Lemma num_den (t : tab) : tp t <> 0%nat -> f1_value t = IZR (2 * Z.of_nat (tp t)) / IZR (Z.of_nat (2 * tp t + fp t + fn t)) /\
  (0 < Z.of_nat (2 * tp t + fp t + fn t))%Z.
Proof.
  intros E. unfold f1_value. rewrite (proj2 (Nat.eqb_neq _ _) E). split; [|lia].
  rewrite mult_IZR, <- !INR_IZR_INZ, !plus_INR, mult_INR. reflexivity.
Qed.

Theorem C187_one : forall t : tab, (Z.of_nat (tp t + fp t + fn t) <= 2 ^ 40)%Z ->
  (B2R (f1_score (V:=f64) t) = 1 <-> tp t <> 0%nat /\ fp t = 0%nat /\ fn t = 0%nat).
Proof.
  intros t Ht. split.
  - intros E1. destruct (Nat.eq_dec (tp t) 0) as [E|E].
    { exfalso. unfold f1_score in E1. rewrite E in E1. cbn [Nat.eqb] in E1. destruct n0_f64 as (E0 & _). rewrite E0 in E1. lra. }
    split; [exact E|].
    destruct (Nat.eq_dec (fp t + fn t) 0) as [Z|Z]; [lia|exfalso].
    pose proof (C187_f1_error t ltac:(lia)) as H. rewrite E1 in H.
    destruct (num_den t E) as (V & D). set (d := Z.of_nat (2 * tp t + fp t + fn t)) in *.
    assert (Pd : 0 < IZR d) by now apply IZR_lt.
    assert (Hv : f1_value t <= 1 - / IZR d).
    { rewrite V. apply (Rmult_le_reg_r (IZR d)); [exact Pd|]. unfold Rdiv. rewrite Rmult_assoc, Rinv_l, Rmult_1_r by lra.
      rewrite Rmult_minus_distr_r, Rinv_l, Rmult_1_l by lra. rewrite <- minus_IZR. apply IZR_le. unfold d. lia. }
    assert (Hd : bpow radix2 (-41) <= / IZR d).
    { change (bpow radix2 (-41)) with (/ IZR (2 ^ 41)). apply Rinv_le; [exact Pd|]. apply IZR_le. unfold d. lia. }
    pose proof (f1_value_nn t) as Nn. apply Rabs_le_inv in H. destruct H as (_ & H).
    assert (B : bpow radix2 (-49) < bpow radix2 (-41)) by (apply bpow_lt; lia).
    assert (bpow radix2 (-49) * f1_value t <= bpow radix2 (-49) * 1).
    { apply Rmult_le_compat_l; [apply bpow_ge_0|]. pose proof (Rinv_0_lt_compat _ Pd). lra. }
    lra.
  - intros (E & Ep & En). apply f1_one; auto. lia.
Qed.

(** comparing two float64 values: a strictly better table never looks worse or equal *)
Theorem C187_order : forall a b : tab,
  (Z.of_nat (2 * tp a + fp a + fn a) <= 2 ^ 24)%Z -> (Z.of_nat (2 * tp b + fp b + fn b) <= 2 ^ 24)%Z ->
  f1_value a < f1_value b -> nlt (f1_score (V:=f64) a) (f1_score (V:=f64) b) = true.
Proof.
  intros a b Ha Hb Hlt.
  destruct (f1_range64 a ltac:(lia)) as (Fa & Ra). destruct (f1_range64 b ltac:(lia)) as (Fb & Rb).
  apply nlt_B2R; [exact Fa|exact Fb|].
  assert (Eb : tp b <> 0%nat).
  { intros E. unfold f1_value in Hlt at 2. rewrite E in Hlt. cbn [Nat.eqb] in Hlt. pose proof (f1_value_nn a). lra. }
  destruct (num_den b Eb) as (Vb & Db).
  pose proof (C187_f1_error a ltac:(lia)) as Xa. pose proof (C187_f1_error b ltac:(lia)) as Xb.
  destruct (Nat.eq_dec (tp a) 0) as [E0|Ea].
  { destruct (f1_pw b ltac:(lia)) as (_ & G). specialize (G Eb). pose proof (bpow_gt_0 radix2 (-107)).
    assert (Z0 : B2R (f1_score (V:=f64) a) = 0) by (unfold f1_score; rewrite E0; apply n0_f64). lra. }
  destruct (num_den a Ea) as (Va & Da).
  set (da := Z.of_nat (2 * tp a + fp a + fn a)) in *. set (db := Z.of_nat (2 * tp b + fp b + fn b)) in *.
  set (na := (2 * Z.of_nat (tp a))%Z) in *. set (nb := (2 * Z.of_nat (tp b))%Z) in *.
  assert (Pa : 0 < IZR da) by now apply IZR_lt. assert (Pb : 0 < IZR db) by now apply IZR_lt.
  assert (Hz : (na * db < nb * da)%Z).
  { apply lt_IZR. rewrite !mult_IZR. rewrite Va, Vb in Hlt.
    apply (Rmult_lt_compat_r (IZR da * IZR db)) in Hlt; [|now apply Rmult_lt_0_compat].
    replace (IZR na / IZR da * (IZR da * IZR db)) with (IZR na * IZR db) in Hlt by (field; lra).
    replace (IZR nb / IZR db * (IZR da * IZR db)) with (IZR nb * IZR da) in Hlt by (field; lra). exact Hlt. }
  assert (Hz2 : (na * db + 2 <= nb * da)%Z) by (unfold na, nb in *; lia).
  assert (Gap : bpow radix2 (-47) <= f1_value b - f1_value a).
  { assert (Q : f1_value b - f1_value a = (IZR (nb * da) - IZR (na * db)) * / (IZR da * IZR db)).
    { rewrite Va, Vb, !mult_IZR. field. lra. }
    rewrite Q. assert (I : bpow radix2 (-48) <= / (IZR da * IZR db)).
    { change (bpow radix2 (-48)) with (/ IZR (2 ^ 48)). rewrite <- mult_IZR.
      apply Rinv_le; [apply IZR_lt; nia|]. apply IZR_le. change (2 ^ 48)%Z with (2 ^ 24 * 2 ^ 24)%Z.
      apply Z.mul_le_mono_nonneg; lia. }
    replace (bpow radix2 (-47)) with (2 * bpow radix2 (-48)) by (change 2 with (bpow radix2 1); rewrite <- bpow_plus; reflexivity).
    apply Rmult_le_compat; [lra|apply bpow_ge_0| |exact I].
    rewrite <- minus_IZR. apply IZR_le. lia. }
  assert (V1 : forall t, f1_value t <= 1).
  { intros t. unfold f1_value. destruct (Nat.eqb_spec (tp t) 0) as [E|E]; [lra|].
    assert (0 < INR (tp t)) by (apply lt_0_INR; lia). pose proof (pos_INR (fp t)). pose proof (pos_INR (fn t)).
    apply (Rmult_le_reg_r (2 * INR (tp t) + INR (fp t) + INR (fn t))); [lra|].
    unfold Rdiv. rewrite Rmult_assoc, Rinv_l, Rmult_1_r by lra. lra. }
  apply Rabs_le_inv in Xa. apply Rabs_le_inv in Xb.
  assert (Ka : bpow radix2 (-49) * f1_value a <= bpow radix2 (-49) * 1) by (apply Rmult_le_compat_l; [apply bpow_ge_0|apply V1]).
  assert (Kb : bpow radix2 (-49) * f1_value b <= bpow radix2 (-49) * 1) by (apply Rmult_le_compat_l; [apply bpow_ge_0|apply V1]).
  replace (bpow radix2 (-47)) with (4 * bpow radix2 (-49)) in Gap by (change 4 with (bpow radix2 2); rewrite <- bpow_plus; reflexivity).
  pose proof (bpow_gt_0 radix2 (-49)). lra.
Qed.

(** but two tables with the same exact F1 can get different float64 values: equal
    quality may be reported as a difference (3 TP, 2 FN against 3 TP, 1 FP, 1 FN; F1 = 3/4) *)
Theorem C187_ties_break : exists a b : tab,
  f1_value a = f1_value b /\ nlt (f1_score (V:=f64) a) (f1_score (V:=f64) b) = true.
Proof.
  exists (Tab 0 0 2 3), (Tab 0 1 1 3). split; [unfold f1_value; cbn [tp fp fn Nat.eqb]; simpl; field|vm_compute; reflexivity].
Qed.

(** the averages, for every way numpy may associate the sum *)
Theorem C187_macro_error : forall (ts : list tab) (r : f64), ts <> [] -> (Z.of_nat (length ts) <= 2 ^ 50)%Z ->
  (forall t, In t ts -> (Z.of_nat (tp t + fp t + fn t) <= 2 ^ 53)%Z) -> f1_macro ts r ->
  let exact := fold_right Rplus 0 (map f1_value ts) / INR (length ts) in
  Rabs (B2R r - exact) <= 2 * (INR (8 + length ts) * bpow radix2 (-53)) * exact.
Proof.
  intros ts r Hne Hl Ht Hr exact. rewrite <- u53_def. apply pw_abs; [| |apply macro_pw; auto; lia].
  - apply Rmult_le_pos.
    + clear. induction ts as [|t ts IH]; simpl; [lra|]. pose proof (f1_value_nn t). lra.
    + left. apply Rinv_0_lt_compat, lt_0_INR. destruct ts; [congruence|simpl; lia].
  - apply Rle_trans with (IZR (2 ^ 52) * u53).
    + apply Rmult_le_compat_r; [left; apply u_bounds|]. rewrite INR_IZR_INZ. apply IZR_le. lia.
    + right. change (IZR (2 ^ 52)) with (bpow radix2 52). rewrite u53_def, <- bpow_plus. simpl. lra.
Qed.
Theorem C187_weighted_error : forall (ts : list tab) (r : f64), (Z.of_nat (length ts) <= 2 ^ 50)%Z ->
  (forall t, In t ts -> (Z.of_nat (tp t + fp t + fn t) <= 2 ^ 53)%Z) ->
  (Z.of_nat (sum_nat (map (fun t => fn t + tp t)%nat ts)) <= 2 ^ 53)%Z -> f1_weighted ts (Ok r) ->
  let exact := fold_right Rplus 0 (map (fun t => f1_value t * INR (fn t + tp t)) ts) /
               INR (sum_nat (map (fun t => fn t + tp t)%nat ts)) in
  Rabs (B2R r - exact) <= 2 * (INR (9 + length ts) * bpow radix2 (-53)) * exact.
Proof.
  intros ts r Hl Ht Hw Hr exact. rewrite <- u53_def. apply pw_abs; [| |apply weighted_pw; auto; lia].
  - apply Rmult_le_pos.
    + clear. induction ts as [|t ts IH]; [simpl; lra|]. cbn [map fold_right]. pose proof (f1_value_nn t).
      pose proof (Rmult_le_pos _ _ H (pos_INR (fn t + tp t))). lra.
    + left. apply Rinv_0_lt_compat, lt_0_INR. unfold f1_weighted in Hr.
      destruct (Nat.eqb_spec (sum_nat (map tab_weight ts)) 0) as [E|E]; [discriminate|].
      change (map (fun t => fn t + tp t)%nat ts) with (map tab_weight ts). lia.
  - apply Rle_trans with (IZR (2 ^ 52) * u53).
    + apply Rmult_le_compat_r; [left; apply u_bounds|]. rewrite INR_IZR_INZ. apply IZR_le. lia.
    + right. change (IZR (2 ^ 52)) with (bpow radix2 52). rewrite u53_def, <- bpow_plus. simpl. lra.
Qed.

(** cases: two tables with exact F1 2/3 < 3/4, and their macro and weighted averages *)
Definition tA : tab := Tab 5 0 1 1.
Definition tB : tab := Tab 2 0 2 3.
Example C187_case_order :
  (Z.of_nat (2 * tp tA + fp tA + fn tA) <= 2 ^ 24)%Z /\ (Z.of_nat (2 * tp tB + fp tB + fn tB) <= 2 ^ 24)%Z /\
  f1_value tA < f1_value tB.
Proof. repeat split; try (vm_compute; discriminate). unfold f1_value, tA, tB. simpl. lra. Qed.
Example C187_case_macro : exists r : f64, f1_macro [tA; tB] r.
Proof.
  eexists. eexists. split; [|reflexivity]. apply (ns_app [f1_score tA] [f1_score tB]); [discriminate|discriminate|constructor|constructor].
Qed.
Example C187_case_weighted : exists r : f64, f1_weighted [tA; tB] (Ok r).
Proof.
  eexists. eexists. split; [|reflexivity].
  apply (ns_app [nmul (f1_score tA) (nofnat (tab_weight tA))] [nmul (f1_score tB) (nofnat (tab_weight tB))]);
    [discriminate|discriminate|constructor|constructor].
Qed.

Print Assumptions C187_f1_error.
Print Assumptions C187_one.
Print Assumptions C187_order.
Print Assumptions C187_ties_break.
Print Assumptions C187_macro_error.
Print Assumptions C187_weighted_error.
