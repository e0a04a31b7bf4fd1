(** Rounded quotients of integers: truncation gives the exact integer quotient. *)
From Coq Require Import ZArith Reals Lra Lia Bool.
From Flocq Require Import Core BinarySingleNaN Relative.
From Verif Require Import Num P_F64.
Local Open Scope R_scope.

Notation u53 := (bpow radix2 (-53)).
Lemma u53_val : u53 = / 9007199254740992. Proof. reflexivity. Qed.

Lemma rnd_rel y : bpow radix2 (-200) <= y -> Rabs (rnd y - y) <= u53 * y.
Proof.
  intros H. assert (P : 0 < y) by (pose proof (bpow_gt_0 radix2 (-200)); lra).
  pose proof (relative_error_N_FLT radix2 (SpecFloat.emin 53 1024) 53 eq_refl (fun x => negb (Z.even x)) y) as E.
  rewrite (Rabs_pos_eq y) in E by lra. unfold rnd. cbn [round_mode].
  replace (/ 2 * bpow radix2 (- (53) + 1)) with u53 in E.
  - apply E. apply Rle_trans with (2 := H). apply bpow_le. vm_compute. discriminate.
  - change (bpow radix2 (-53)) with (bpow radix2 (-1 + -52)). rewrite bpow_plus. reflexivity.
Qed.
Lemma rnd_bounds y : bpow radix2 (-200) <= y -> y * (1 - u53) <= rnd y <= y * (1 + u53).
Proof. intros H. pose proof (rnd_rel y H) as E. apply Rabs_le_inv in E. lra. Qed.

Lemma b53 z : (z <= 2 ^ 53)%Z -> IZR z <= bpow radix2 53.
Proof. intros H. change (bpow radix2 53) with (IZR (2 ^ 53)). now apply IZR_le. Qed.
Lemma quot_pos a c : (1 <= a)%Z -> (1 <= c <= 2 ^ 53)%Z -> bpow radix2 (-53) <= IZR a / IZR c.
Proof.
  intros Ha (Hc & Hb). apply IZR_le in Ha, Hc. apply b53 in Hb.
  apply (Rmult_le_reg_r (IZR c)); [lra|]. unfold Rdiv. rewrite Rmult_assoc, Rinv_l, Rmult_1_r by lra.
  apply Rle_trans with (u53 * bpow radix2 53).
  - apply Rmult_le_compat_l; [apply bpow_ge_0|exact Hb].
  - rewrite <- bpow_plus. change (1 <= IZR a). lra.
Qed.

Lemma floor_quot a c e : (0 <= a <= 2 ^ 51)%Z -> (1 <= c <= 2 ^ 53)%Z -> (1 <= e <= 2 ^ 53)%Z ->
  Zfloor (rnd (rnd (IZR a / IZR c) / IZR e)) = (a / (c * e))%Z.
Proof.
  intros Ha Hc He. apply Zfloor_imp. set (q := (a / (c * e))%Z).
  assert (Pc : (0 < c * e)%Z) by nia.
  assert (Q1 : (c * e * q <= a)%Z) by (apply Z.mul_div_le; lia).
  assert (Q2 : (a + 1 <= c * e * (q + 1))%Z) by (pose proof (Z.mul_succ_div_gt a (c * e) Pc); unfold q; lia).
  assert (Q0 : (0 <= q)%Z) by (apply Z.div_pos; lia).
  assert (Qa : (e * q <= a)%Z) by nia.
  assert (Qb : (q <= a)%Z) by nia.
  assert (Rc : 1 <= IZR c) by (apply IZR_le; lia). assert (Re : 1 <= IZR e) by (apply IZR_le; lia).
  split.
  - assert (L1 : IZR (e * q) <= rnd (IZR a / IZR c)).
    { rewrite <- (rnd_Z (e * q)) by lia. apply rnd_le.
      apply (Rmult_le_reg_r (IZR c)); [lra|]. unfold Rdiv. rewrite Rmult_assoc, Rinv_l, Rmult_1_r by lra.
      rewrite <- mult_IZR. apply IZR_le. nia. }
    rewrite <- (rnd_Z q) by lia. apply rnd_le.
    apply (Rmult_le_reg_r (IZR e)); [lra|]. unfold Rdiv. rewrite Rmult_assoc, Rinv_l, Rmult_1_r by lra.
    rewrite <- mult_IZR, Z.mul_comm. exact L1.
  - destruct (Z.eq_dec a 0) as [->|Hz].
    { unfold Rdiv. rewrite Rmult_0_l, rnd_0, Rmult_0_l, rnd_0. apply IZR_lt. lia. }
    assert (X : bpow radix2 (-53) <= IZR a / IZR c) by (apply quot_pos; lia).
    assert (X' : bpow radix2 (-200) <= IZR a / IZR c) by (apply Rle_trans with (2 := X); apply bpow_le; lia).
    pose proof (rnd_bounds _ X') as (B1 & B2). set (x := rnd (IZR a / IZR c)) in *.
    assert (Px : 0 < IZR a / IZR c) by (pose proof (bpow_gt_0 radix2 (-53)); lra).
    assert (Xl : bpow radix2 (-54) <= x).
    { apply Rle_trans with (IZR a / IZR c * / 2).
      - change (-54)%Z with (-53 + -1)%Z. rewrite bpow_plus. change (bpow radix2 (-1)) with (/ 2). lra.
      - apply Rle_trans with (2 := B1). apply Rmult_le_compat_l; [lra|]. rewrite u53_val. lra. }
    assert (Y : bpow radix2 (-107) <= x / IZR e).
    { apply (Rmult_le_reg_r (IZR e)); [lra|]. unfold Rdiv. rewrite Rmult_assoc, Rinv_l, Rmult_1_r by lra.
      apply Rle_trans with (bpow radix2 (-107) * bpow radix2 53).
      - apply Rmult_le_compat_l; [apply bpow_ge_0|]. apply b53. lia.
      - rewrite <- bpow_plus. exact Xl. }
    assert (Y' : bpow radix2 (-200) <= x / IZR e) by (apply Rle_trans with (2 := Y); apply bpow_le; lia).
    pose proof (rnd_bounds _ Y') as (_ & B4).
    apply Rle_lt_trans with (1 := B4).
    apply Rle_lt_trans with (IZR a / IZR c * (1 + u53) / IZR e * (1 + u53)).
    { apply Rmult_le_compat_r; [rewrite u53_val; lra|]. apply Rmult_le_compat_r; [|exact B2].
      left. apply Rinv_0_lt_compat. lra. }
    apply (Rmult_lt_reg_r (IZR (c * e))); [apply IZR_lt; lia|].
    replace (IZR a / IZR c * (1 + u53) / IZR e * (1 + u53) * IZR (c * e)) with (IZR a * ((1 + u53) * (1 + u53)))
      by (rewrite mult_IZR; field; lra).
    apply Rlt_le_trans with (IZR a + 1).
    + assert (A : 1 <= IZR a <= IZR (2 ^ 51)) by (split; apply IZR_le; lia).
      change (IZR (2 ^ 51)) with 2251799813685248 in A. rewrite u53_val. nra.
    + rewrite <- plus_IZR, <- mult_IZR. apply IZR_le. lia.
Qed.

Lemma rnd_idem x : rnd (rnd x) = rnd x.
Proof.
  unfold rnd. apply round_generic; [apply valid_rnd_round_mode|].
  apply generic_format_round; [exact (fexp_correct 53 1024 prec53)|apply valid_rnd_round_mode].
Qed.
Lemma floor_quot1 a c : (0 <= a <= 2 ^ 51)%Z -> (1 <= c <= 2 ^ 53)%Z ->
  Zfloor (rnd (IZR a / IZR c)) = (a / c)%Z.
Proof.
  intros Ha Hc. rewrite <- rnd_idem. replace (rnd (IZR a / IZR c)) with (rnd (IZR a / IZR c) / IZR 1) by (unfold Rdiv; rewrite Rinv_1; ring).
  rewrite floor_quot by lia. now rewrite Z.mul_1_r.
Qed.
Lemma ceil_quot a c : (0 <= a <= 2 ^ 51)%Z -> (1 <= c <= 2 ^ 53)%Z ->
  Zceil (rnd (IZR a / IZR c)) = ((a + c - 1) / c)%Z.
Proof.
  intros Ha Hc. apply Zceil_imp. set (q := ((a + c - 1) / c)%Z).
  assert (Q1 : (c * q <= a + c - 1)%Z) by (apply Z.mul_div_le; lia).
  assert (Q2 : (a + c <= c * (q + 1))%Z) by (pose proof (Z.mul_succ_div_gt (a + c - 1) c ltac:(lia)); unfold q; lia).
  assert (Rc : 1 <= IZR c) by (apply IZR_le; lia).
  assert (Qa : (q <= a)%Z). { destruct (Z.eq_dec a 0) as [->|]; [unfold q; rewrite Z.div_small by lia; lia|nia]. }
  assert (Q0 : (0 <= q)%Z) by (apply Z.div_pos; lia).
  split.
  - destruct (Z.eq_dec a 0) as [->|Hz].
    { unfold Rdiv. rewrite Rmult_0_l, rnd_0. apply IZR_lt. lia. }
    assert (X : bpow radix2 (-53) <= IZR a / IZR c) by (apply quot_pos; lia).
    assert (X' : bpow radix2 (-200) <= IZR a / IZR c) by (apply Rle_trans with (2 := X); apply bpow_le; lia).
    pose proof (rnd_bounds _ X') as (B1 & _). apply Rlt_le_trans with (2 := B1).
    apply (Rmult_lt_reg_r (IZR c)); [lra|].
    replace (IZR a / IZR c * (1 - u53) * IZR c) with (IZR a * (1 - u53)) by (field; lra).
    apply Rle_lt_trans with (IZR a - 1).
    + rewrite <- mult_IZR, <- minus_IZR. apply IZR_le. nia.
    + assert (A : 1 <= IZR a <= IZR (2 ^ 51)) by (split; apply IZR_le; lia).
      change (IZR (2 ^ 51)) with 2251799813685248 in A. rewrite u53_val. lra.
  - rewrite <- (rnd_Z q) by lia. apply rnd_le.
    apply (Rmult_le_reg_r (IZR c)); [lra|]. unfold Rdiv. rewrite Rmult_assoc, Rinv_l, Rmult_1_r by lra.
    rewrite <- mult_IZR. apply IZR_le. lia.
Qed.

(** *** the same for float64 *)
Lemma bpow1024_big' : bpow radix2 60 < bpow radix2 1024.
Proof. apply bpow_lt. reflexivity. Qed.
Lemma div_f64 (x y : f64) : is_finite x = true -> is_finite y = true -> 0 <= B2R x <= bpow radix2 55 -> 1 <= B2R y ->
  B2R (ndiv x y) = rnd (B2R x / B2R y) /\ is_finite (ndiv x y) = true /\ 0 <= B2R (ndiv x y) <= bpow radix2 55.
Proof.
  intros Fx Fy Hx Hy. pose proof (Bdiv_correct 53 1024 prec53 emax1024 mode_NE x y ltac:(lra)) as H.
  fold (rnd (B2R x / B2R y)) in H.
  assert (U : 0 <= B2R x / B2R y <= bpow radix2 55).
  { assert (0 < / B2R y <= 1) by (split; [apply Rinv_0_lt_compat; lra|rewrite <- Rinv_1; apply Rinv_le; lra]).
    unfold Rdiv. split; [apply Rmult_le_pos; lra|]. nra. }
  assert (Ur : 0 <= rnd (B2R x / B2R y) <= bpow radix2 55).
  { rewrite <- rnd_0 at 1. rewrite <- (rnd_gen (bpow radix2 55)) at 1.
    - split; apply rnd_le; lra.
    - apply (generic_format_bpow radix2 (SpecFloat.fexp 53 1024)). vm_compute. discriminate. }
  rewrite Rlt_bool_true in H.
  2:{ rewrite Rabs_pos_eq by lra. apply Rle_lt_trans with (1 := proj2 Ur). apply bpow_lt. reflexivity. }
  destruct H as (H1 & H2 & _). rewrite Fx in H2. cbn [ndiv Num_f64]. rewrite H1. auto.
Qed.
Lemma ofZ_nonneg z : (0 <= z <= 2 ^ 53)%Z ->
  B2R (f64_ofZ z) = IZR z /\ is_finite (f64_ofZ z) = true /\ 0 <= B2R (f64_ofZ z) <= bpow radix2 55.
Proof.
  intros H. destruct (f64_ofZ_exact z ltac:(lia)) as (E & F). split; [exact E|]. split; [exact F|]. rewrite E.
  split; [apply IZR_le; lia|]. apply Rle_trans with (bpow radix2 53); [apply b53; lia|apply bpow_le; lia].
Qed.
Lemma Btrunc_Z (x : f64) : Btrunc x = Ztrunc (B2R x).
Proof.
  apply eq_IZR. rewrite (Btrunc_correct 53 1024 emax1024). unfold round, scaled_mantissa, cexp, FIX_exp, F2R. cbn [Fnum Fexp Z.opp bpow]. rewrite !Rmult_1_r. reflexivity.
Qed.
