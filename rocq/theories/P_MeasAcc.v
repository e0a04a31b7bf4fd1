(** Accuracy of quotients of counts, for C191. *)
From Coq Require Import ZArith Reals Lra List Arith Lia Bool.
From Flocq Require Import Core BinarySingleNaN.
From Verif Require Import Py Num NumT P_GK2 P_F64 P_F1 P_LSAcc P_GKAcc P_F1Acc.
Import ListNotations.
Local Open Scope nat_scope.

Lemma ratio_le1 a b : 0 < b -> a <= b -> (0 <= INR a / INR b <= 1)%R.
Proof.
  intros Hb H. assert (P : (0 < INR b)%R) by (apply lt_0_INR; lia). pose proof (pos_INR a) as Pa. apply le_INR in H. split.
  - apply Rmult_le_pos; [exact Pa|left; now apply Rinv_0_lt_compat].
  - apply (Rmult_le_reg_r (INR b)); [exact P|]. unfold Rdiv. rewrite Rmult_assoc, Rinv_l, Rmult_1_r, Rmult_1_l by lra. exact H.
Qed.

Lemma frac_gap a b c d : 0 < b -> 0 < d -> (Z.of_nat b <= 2 ^ 25)%Z -> (Z.of_nat d <= 2 ^ 25)%Z -> a * d < c * b ->
  (8 * u53 <= INR c / INR d - INR a / INR b)%R.
Proof.
  intros Hb Hd Bb Bd H. assert (Pb : (0 < INR b)%R) by (apply lt_0_INR; lia). assert (Pd : (0 < INR d)%R) by (apply lt_0_INR; lia).
  replace (INR c / INR d - INR a / INR b)%R with ((INR (c * b) - INR (a * d)) * / (INR b * INR d))%R by (rewrite !mult_INR; field; lra).
  replace (8 * u53)%R with (1 * / (IZR (2 ^ 25) * IZR (2 ^ 25)))%R.
  2:{ rewrite <- mult_IZR. unfold u53. change 8%R with (bpow radix2 3). rewrite <- bpow_plus. rewrite Rmult_1_l. reflexivity. }
  apply Rmult_le_compat; [lra| | |].
  - left. apply Rinv_0_lt_compat. apply Rmult_lt_0_compat; apply IZR_lt; lia.
  - apply le_INR in H. rewrite S_INR in H. lra.
  - apply Rinv_le; [now apply Rmult_lt_0_compat|]. rewrite !INR_IZR_INZ. apply Rmult_le_compat; apply IZR_le; lia.
Qed.

(** different fractions with small denominators stay in order after two roundings *)
Lemma frac_order a b c d x y : 0 < b -> 0 < d -> a <= b -> c <= d ->
  (Z.of_nat b <= 2 ^ 25)%Z -> (Z.of_nat d <= 2 ^ 25)%Z -> a * d < c * b ->
  pw 2 (INR a / INR b) x -> pw 2 (INR c / INR d) y -> (x < y)%R.
Proof.
  intros Hb Hd Ha Hc Bb Bd H (_ & X) (Y & _). pose proof (frac_gap a b c d Hb Hd Bb Bd H) as G.
  destruct (ratio_le1 a b Hb Ha). destruct (ratio_le1 c d Hd Hc). simpl in X, Y. pose proof u_bounds.
  set (A := (INR a / INR b)%R) in *. set (C := (INR c / INR d)%R) in *.
  assert (X1 : (x <= A + 3 * u53)%R) by nra. assert (Y1 : (C - 2 * u53 <= y)%R) by nra. lra.
Qed.

(** a share below 1 with a denominator of at most 2^50 stays below 1 *)
Lemma frac_below1 a b x : a < b -> (Z.of_nat b <= 2 ^ 50)%Z -> (x <= INR a / INR b * (1 + u53) ^ 4)%R -> (x < 1)%R.
Proof.
  intros H Hb X. assert (P : (0 < INR b)%R) by (apply lt_0_INR; lia).
  assert (G : (INR a / INR b <= 1 - 8 * u53)%R).
  { apply Rle_trans with (1 - / INR b)%R.
    - replace (1 - / INR b)%R with ((INR b - 1) * / INR b)%R by (field; lra). apply Rmult_le_compat_r; [left; now apply Rinv_0_lt_compat|].
      apply le_INR in H. rewrite S_INR in H. lra.
    - apply Rplus_le_compat_l, Ropp_le_contravar. replace (8 * u53)%R with (/ IZR (2 ^ 50))%R.
      + apply Rinv_le; [exact P|]. rewrite INR_IZR_INZ. apply IZR_le. lia.
      + unfold u53. change 8%R with (bpow radix2 3). rewrite <- bpow_plus. reflexivity. }
  pose proof (ratio_le1 a b ltac:(lia) ltac:(lia)) as (P0 & _). pose proof u_bounds as U.
  assert (Q : ((1 + u53) ^ 4 <= 1 + 2 * (INR 4 * u53))%R) by (apply pow_upper; simpl; lra).
  simpl (INR 4) in Q. set (A := (INR a / INR b)%R) in *. nra.
Qed.

Lemma ofnat_mono a b : a <= b -> (Z.of_nat b <= 2 ^ 64)%Z -> (B2R (nofnat a : f64) <= B2R (nofnat b : f64))%R.
Proof.
  intros H Hb.
  assert (G : forall c, (Z.of_nat c <= 2 ^ 64)%Z -> B2R (nofnat c : f64) = rnd (INR c)).
  { intros c Hc. destruct (ofZ_rel c Hc) as (F & _). change (nofnat c : f64) with (f64_ofZ (Z.of_nat c)). change (nofZ (Z.of_nat c) : f64) with (f64_ofZ (Z.of_nat c)) in F. unfold f64_ofZ in *.
    pose proof (binary_normalize_correct 53 1024 prec53 emax1024 mode_NE (Z.of_nat c) 0 false) as X. cbv zeta in X.
    replace (F2R {| Fnum := Z.of_nat c; Fexp := 0 |}) with (INR c) in X by (rewrite INR_IZR_INZ; unfold F2R; simpl; ring).
    fold (rnd (INR c)) in X. destruct (Rlt_bool _ _); [apply X|]. exfalso. revert F X. generalize (binary_normalize 53 1024 prec53 emax1024 mode_NE (Z.of_nat c) 0 false).
    intros v Fv X. destruct v; cbn in *; try discriminate; unfold overflow_to_inf in X; discriminate X. }
  rewrite !G by lia. apply rnd_le. now apply le_INR.
Qed.

(** count / count below 2^64, both conversions rounded *)
Lemma big_quot a b : a <= b -> 0 < b -> (Z.of_nat b <= 2 ^ 63)%Z ->
  is_finite (ndiv (nofnat a) (nofnat b) : f64) = true /\ pw 4 (INR a / INR b) (B2R (ndiv (nofnat a) (nofnat b) : f64)) /\
  (0 <= B2R (ndiv (nofnat a) (nofnat b) : f64) <= 1)%R.
Proof.
  intros Hab Hb HB. destruct (ofZ_rel a) as (Fa & ea & Ha & Ea); [lia|]. destruct (ofZ_rel b) as (Fb & eb & Heb & Eb); [lia|].
  change (nofZ (Z.of_nat a) : f64) with (nofnat a : f64) in *. change (nofZ (Z.of_nat b) : f64) with (nofnat b : f64) in *.
  pose proof u_bounds as U. apply Rabs_le_inv in Ha, Heb. assert (Pb : (1 <= INR b)%R) by (apply (le_INR 1); lia). pose proof (pos_INR a) as Pa.
  assert (Wa : pw 1 (INR a) (B2R (nofnat a : f64))) by (rewrite Ea; unfold pw; simpl; split; nra).
  assert (Wb : pw 1 (INR b) (B2R (nofnat b : f64))) by (rewrite Eb; unfold pw; simpl; split; nra).
  assert (Rb : (0 < B2R (nofnat b : f64))%R) by (apply (pw_pos' 1 (INR b)); [lra|exact Wb]).
  assert (Le : (B2R (nofnat a : f64) <= B2R (nofnat b : f64))%R).
  { apply ofnat_mono; lia. }
  assert (Ra : (0 <= B2R (nofnat a : f64))%R) by (apply (pw_pos 1 (INR a)); assumption).
  assert (Q : (0 <= B2R (nofnat a : f64) / B2R (nofnat b : f64) <= 1)%R).
  { split; [apply Rmult_le_pos; [exact Ra|left; now apply Rinv_0_lt_compat]|]. apply (Rmult_le_reg_r (B2R (nofnat b : f64))); [exact Rb|].
    unfold Rdiv. rewrite Rmult_assoc, Rinv_l, Rmult_1_r, Rmult_1_l by lra. exact Le. }
  assert (Rn : (0 <= rnd (B2R (nofnat a : f64) / B2R (nofnat b : f64)) <= 1)%R).
  { split; [rewrite <- rnd_0|rewrite <- (rnd_gen 1)]; try (apply rnd_le; lra). change 1%R with (bpow radix2 0). apply generic_format_bpow. vm_compute. discriminate. }
  destruct (f_div (nofnat a) (nofnat b) Fa) as (F & E); [lra| |].
  { rewrite Rabs_pos_eq by lra. apply Rle_lt_trans with 1%R; [lra|]. change 1%R with (bpow radix2 0). apply bpow_lt. lia. }
  split; [exact F|]. rewrite E. split; [|exact Rn].
  apply (pw_rnd 3).
  - apply (ratio_le1 a b Hb Hab).
  - destruct (Nat.eq_dec a 0) as [->|Na].
    + left. assert (Z0 : B2R (nofnat 0 : f64) = 0%R) by (rewrite Ea; simpl; ring). rewrite Z0. unfold Rdiv. ring.
    + apply (normal_ge _ (-65)); [lia|].
      assert (A1 : (/ 2 <= B2R (nofnat a : f64))%R). { rewrite Ea. assert (1 <= INR a)%R by (apply (le_INR 1); lia). nra. }
      assert (B1 : (B2R (nofnat b : f64) <= IZR (2 ^ 64))%R).
      { rewrite Eb. assert (INR b <= IZR (2 ^ 63))%R by (rewrite INR_IZR_INZ; apply IZR_le; lia). change (IZR (2 ^ 64)) with (IZR (2 * 2 ^ 63)). rewrite mult_IZR. nra. }
      change (bpow radix2 (-65)) with (/ IZR (2 * 2 ^ 64))%R. rewrite mult_IZR, Rinv_mult.
      apply Rmult_le_compat; [lra|left; apply Rinv_0_lt_compat; apply IZR_lt; lia|exact A1|]. now apply Rinv_le.
  - apply (pw_div 1 1); [exact Pa|lra|exact Wa|exact Wb].
Qed.
