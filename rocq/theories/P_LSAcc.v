(** Rounding errors of local scaling. *)
From Coq Require Import ZArith Reals Lra Lia Bool.
From Flocq Require Import Core BinarySingleNaN Relative.
From Verif Require Import Num P_F64 S_LSFloat P_LSFloat.
Local Open Scope R_scope.

Definition u53 : R := bpow radix2 (-53).
Lemma u53_pos : 0 < u53 <= / 1000.
Proof.
  split; [apply bpow_gt_0|]. unfold u53. apply Rle_trans with (bpow radix2 (-10)); [apply bpow_le; lia|].
  simpl. lra.
Qed.

Lemma exp_lip s t : 0 <= s <= t -> 0 <= exp (- s) - exp (- t) <= (t - s) * exp (- s).
Proof.
  intros H. replace (- t) with (- s + - (t - s)) by ring. rewrite exp_plus.
  pose proof (exp_pos (- s)) as P. pose proof (exp_ineq1_le (- (t - s))) as I.
  assert (J : exp (- (t - s)) <= 1).
  { rewrite <- exp_0. destruct (Req_dec t s) as [->|Hne]; [rewrite Rminus_diag_eq, Ropp_0 by reflexivity; lra|].
    left. apply exp_increasing. lra. }
  split; nra.
Qed.

Lemma exp_bound m : 0 <= m -> m * exp (- m) <= 1.
Proof.
  intros H. pose proof (exp_ineq1_le m) as I. pose proof (exp_pos m). rewrite exp_Ropp.
  apply Rmult_le_reg_r with (exp m); [lra|]. rewrite Rmult_assoc, Rinv_l by lra. lra.
Qed.

(** a relative error of the argument *)
Lemma exp_rel x y d : 0 <= d -> 0 <= x -> 0 <= y -> Rabs (x - y) <= d * x -> Rabs (x - y) <= d * y ->
  Rabs (exp (- x) - exp (- y)) <= d.
Proof.
  intros Hd Hx Hy H1 H2. destruct (Rle_dec x y) as [L|L].
  - destruct (exp_lip x y ltac:(lra)) as (A & B). rewrite Rabs_pos_eq by exact A.
    rewrite Rabs_left1 in H1 by lra. pose proof (exp_bound x Hx). pose proof (exp_pos (- x)).
    apply Rle_trans with (1 := B). apply Rle_trans with (d * x * exp (- x)); [apply Rmult_le_compat_r; lra|]. rewrite Rmult_assoc. nra.
  - destruct (exp_lip y x ltac:(lra)) as (A & B). rewrite Rabs_minus_sym, Rabs_pos_eq by exact A.
    rewrite Rabs_pos_eq in H2 by lra. pose proof (exp_bound y Hy). pose proof (exp_pos (- y)).
    apply Rle_trans with (1 := B). apply Rle_trans with (d * y * exp (- y)); [apply Rmult_le_compat_r; lra|]. rewrite Rmult_assoc. nra.
Qed.

Lemma exp_abs x y : 0 <= x -> 0 <= y -> Rabs (exp (- x) - exp (- y)) <= Rabs (x - y).
Proof.
  intros Hx Hy. destruct (Rle_dec x y) as [L|L].
  - destruct (exp_lip x y ltac:(lra)) as (A & B). rewrite Rabs_pos_eq by exact A. rewrite Rabs_left1 by lra.
    assert (exp (- x) <= 1) by (rewrite <- exp_0; destruct (Req_dec x 0) as [->|]; [rewrite Ropp_0; lra|left; apply exp_increasing; lra]). nra.
  - destruct (exp_lip y x ltac:(lra)) as (A & B). rewrite Rabs_minus_sym, Rabs_pos_eq by exact A. rewrite Rabs_pos_eq by lra.
    assert (exp (- y) <= 1) by (rewrite <- exp_0; destruct (Req_dec y 0) as [->|]; [rewrite Ropp_0; lra|left; apply exp_increasing; lra]). nra.
Qed.

(** products and quotients of factors close to 1 *)
Lemma ratio_close e1 e2 e3 u : 0 < u <= / 1000 -> Rabs e1 <= u -> Rabs e2 <= u -> Rabs e3 <= u ->
  let r := (1 + e1) * (1 + e3) / (1 + e2) in 0 < r /\ Rabs (r - 1) <= 4 * u /\ Rabs (r - 1) <= 4 * u * r.
Proof.
  intros Hu H1 H2 H3 r.
  apply Rabs_le_inv in H1. apply Rabs_le_inv in H2. apply Rabs_le_inv in H3.
  assert (P2 : 0 < 1 + e2) by lra.
  assert (E : r * (1 + e2) = (1 + e1) * (1 + e3)) by (unfold r; field; lra).
  assert (U : (1 + e1) * (1 + e3) <= (1 + u) * (1 + u)) by (apply Rmult_le_compat; lra).
  assert (Lo : (1 - u) * (1 - u) <= (1 + e1) * (1 + e3)) by (apply Rmult_le_compat; lra).
  assert (Pr : 0 < r) by (apply Rmult_lt_reg_r with (1 + e2); [exact P2|]; rewrite Rmult_0_l, E; nra).
  assert (A : r * (1 - u) <= (1 + u) * (1 + u)).
  { apply Rle_trans with (r * (1 + e2)); [apply Rmult_le_compat_l; lra|]. lra. }
  assert (B : (1 - u) * (1 - u) <= r * (1 + u)).
  { apply Rle_trans with (r * (1 + e2)); [lra|]. apply Rmult_le_compat_l; lra. }
  assert (R1 : r <= 1 + 3.5 * u).
  { apply Rmult_le_reg_r with (1 - u); [lra|]. apply Rle_trans with (1 := A). nra. }
  assert (R2 : 1 - 3.5 * u <= r).
  { apply Rmult_le_reg_r with (1 + u); [lra|]. apply Rle_trans with (2 := B). nra. }
  split; [exact Pr|]. split; apply Rabs_le; split; nra.
Qed.

Lemma half_ulp : / 2 * bpow radix2 (- (53) + 1) <= u53.
Proof. rewrite bpow_plus. assert (E : bpow radix2 1 = 2) by (simpl; lra). rewrite E. unfold u53. change (- (53))%Z with (-53)%Z. lra. Qed.
Lemma rnd_norm x : bpow radix2 (-1022) <= Rabs x -> exists e, Rabs e <= u53 /\ rnd x = x * (1 + e).
Proof.
  intros H. pose proof (relative_error_N_FLT_ex radix2 (-1074) 53 ltac:(lia) (fun z => negb (Z.even z)) x) as E.
  destruct E as (e & He & E); [exact H|]. exists e. split; [|exact E].
  apply Rle_trans with (1 := He). apply half_ulp.
Qed.
Lemma rnd_any x : exists e t, Rabs e <= u53 /\ Rabs t <= u53 /\ rnd x = x * (1 + e) + t.
Proof.
  destruct (error_N_FLT radix2 (-1074) 53 ltac:(lia) (fun z => negb (Z.even z)) x) as (e & t & He & Ht & _ & E).
  exists e, t. split; [|split].
  - apply Rle_trans with (1 := He). apply half_ulp.
  - apply Rle_trans with (1 := Ht). unfold u53. change (/ 2) with (bpow radix2 (-1)). rewrite <- bpow_plus. apply bpow_le. lia.
  - exact E.
Qed.
