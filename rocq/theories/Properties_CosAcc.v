(** Property C160: how far cosine distances in float64 are from 1 - cos
    (distances.py:28-37). *)
From Coq Require Import String.
From Coq Require Import ZArith Reals Lra List Arith Lia Bool.
From Flocq Require Import Core BinarySingleNaN.
From Verif Require Import Py Num NumT Arr S_Neighbors S_LS S_Centering M_Dist.
From Verif Require Import P_F64 P_LS3 P_LSFloat P_LSAcc Properties_LSFloat Properties_LSAcc S_NicdmAcc P_NicdmAcc Properties_NicdmAcc P_Vec P_CosAcc.
Import ListNotations.
Local Open Scope nat_scope.
Local Open Scope R_scope.

(** no vector is 0, and all entries are 0 or of a size between 2^-140 and 2^140 *)
Definition moderate (X : arr2 f64) : Prop :=
  forall i, (i < nrow X)%nat ->
    (exists f, (f < ncol X)%nat /\ B2R (at2 X i f) <> 0) /\
    (forall f, (f < ncol X)%nat -> nisfin (at2 X i f) = true /\
       (B2R (at2 X i f) = 0 \/ bpow radix2 (-140) <= Rabs (B2R (at2 X i f)) <= bpow radix2 140)).
(** row i as a vector of real numbers *)
Definition vec (X : arr2 f64) (i : nat) : nat -> R := fun f => B2R (at2 X i f).

(** ** C160 (1): the absolute error is at most 24 eps *)
Theorem C160_cosine_accuracy :
  forall vsum eps (X : arr2 f64),
    bpow radix2 (-53) <= eps <= bpow radix2 (-20) -> sum_close eps (ncol X) vsum ->
    (Z.of_nat (ncol X) <= 2 ^ 53)%Z -> moderate X ->
    let D := cosine_distance vsum X in
    forall i j, (i < nrow X)%nat -> (j < nrow X)%nat -> i <> j ->
      nisfin (at2 D i j) = true /\
      Rabs (B2R (at2 D i j) - (1 - cosR (ncol X) (vec X i) (vec X j))) <= 24 * eps.
Proof.
  intros vsum eps X He Hs Hm HX D.
  assert (G : forall i j, (i < j)%nat -> (j < nrow X)%nat -> exists v : f64, same (at2 D i j) v = true /\ same (at2 D j i) v = true /\
    is_finite v = true /\ Rabs (B2R v - (1 - cosR (ncol X) (vec X i) (vec X j))) <= 24 * eps).
  { intros i j Hij Hj. destruct (HX i ltac:(lia)) as (Zi & Fi). destruct (HX j Hj) as (Zj & Fj).
    pose proof (cosdist64 eps (ncol X) vsum He Hs Hm (at2 X i) (at2 X j) Fi Zi Fj Zj) as A. cbv zeta in A. unfold unit_of in A.
    eexists. split; [|split; [|exact A]].
    - unfold D, cosine_distance. cbn [zip2 triu1 transpose mask_value at2 nrow ncol]. destruct (Nat.ltb_spec i j); [|lia]. destruct (Nat.ltb_spec j i); [lia|]. apply same_add0_r.
    - unfold D, cosine_distance. cbn [zip2 triu1 transpose mask_value at2 nrow ncol]. destruct (Nat.ltb_spec i j); [|lia]. destruct (Nat.ltb_spec j i); [lia|]. apply same_add0_l. }
  intros i j Hi Hj Hne. destruct (Nat.lt_total i j) as [Hl|[Hl|Hl]]; [|contradiction|].
  - destruct (G i j Hl Hj) as (v & S1 & _ & F & A). destruct (same_B2R _ _ S1 F) as (F1 & E1). split; [exact F1|]. rewrite E1. exact A.
  - destruct (G j i Hl Hi) as (v & _ & S1 & F & A). destruct (same_B2R _ _ S1 F) as (F1 & E1). split; [exact F1|]. rewrite E1.
    unfold cosR. rewrite (dotR_comm _ (vec X i)), (Rmult_comm (normR _ (vec X i))). exact A.
Qed.

(** ** C160 (2): so neighbours are ranked right unless their distances differ by 48 eps or less *)
Theorem C160_order :
  forall vsum eps (X : arr2 f64),
    bpow radix2 (-53) <= eps <= bpow radix2 (-20) -> sum_close eps (ncol X) vsum ->
    (Z.of_nat (ncol X) <= 2 ^ 53)%Z -> moderate X ->
    let D := cosine_distance vsum X in
    forall i j l, (i < nrow X)%nat -> (j < nrow X)%nat -> (l < nrow X)%nat -> i <> j -> i <> l ->
      cosR (ncol X) (vec X i) (vec X j) > cosR (ncol X) (vec X i) (vec X l) + 48 * eps ->
      nlt (at2 D i j) (at2 D i l) = true.
Proof.
  intros vsum eps X He Hs Hm HX D i j l Hi Hj Hl Hij Hil Hc.
  destruct (C160_cosine_accuracy vsum eps X He Hs Hm HX i j Hi Hj Hij) as (F1 & A1).
  destruct (C160_cosine_accuracy vsum eps X He Hs Hm HX i l Hi Hl Hil) as (F2 & A2).
  apply Rabs_le_inv in A1, A2. apply (nlt_B2R _ _ F1 F2).
  set (d1 := B2R (at2 (cosine_distance vsum X) i j)) in *. set (d2 := B2R (at2 (cosine_distance vsum X) i l)) in *. change (d1 < d2). lra.
Qed.

(** ** C160 (3): the relative error is not bounded: two vectors with different
    directions may get distance 0, as if they were duplicates *)
Definition narrow : arr2 f64 := Arr2 2 2 (fun i f => if (f =? 0)%nat then n1 else if (i =? 0)%nat then f64_of 1 (-30) else n0).

Theorem C160_small_angle_witness :
  moderate narrow /\ neq (at2 (cosine_distance left_to_right narrow) 0 1) n0 = true /\
  0 < 1 - cosR 2 (vec narrow 0) (vec narrow 1).
Proof.
  destruct n1_f64 as (E1 & F1). destruct n0_f64 as (E0 & F0).
  destruct (f64_of_val 1 (-30) ltac:(lia) ltac:(lia)) as ((Ft & _) & Et). rewrite Rmult_1_l in Et.
  assert (Pt := bpow_gt_0 radix2 (-30)).
  split; [|split; [vm_compute; reflexivity|]].
  - intros i Hi. cbn [narrow nrow ncol at2] in *. assert (P140 : bpow radix2 (-140) <= 1 <= bpow radix2 140) by (change 1 with (bpow radix2 0); split; apply bpow_le; lia).
    split; [exists 0%nat; split; [lia|]; cbn [Nat.eqb]; rewrite E1; lra|]. intros f Hf. destruct (Nat.eqb_spec f 0).
    + split; [exact F1|]. right. rewrite E1, Rabs_R1. exact P140.
    + destruct (Nat.eqb_spec i 0).
      * split; [exact Ft|]. right. rewrite Et, Rabs_pos_eq by lra. split; apply bpow_le; lia.
      * split; [exact F0|]. left. exact E0.
  - set (t := bpow radix2 (-30)) in *. unfold cosR, normR, dotR, vec, narrow. cbn [seq map rsum at2 Nat.eqb fold_right].
    rewrite E1, E0, Et. replace (1 * 1 + (t * 0 + 0)) with 1 by ring. replace (1 * 1 + (0 * 0 + 0)) with 1 by ring.
    replace (1 * 1 + (t * t + 0)) with (1 + t * t) by ring. rewrite sqrt_1, Rmult_1_r.
    assert (S1 : 1 < sqrt (1 + t * t)) by (rewrite <- sqrt_1 at 1; apply sqrt_lt_1_alt; nra).
    assert (/ sqrt (1 + t * t) < 1) by (apply Rmult_lt_reg_r with (sqrt (1 + t * t)); [lra|rewrite Rinv_l; lra]). unfold Rdiv. lra.
Qed.

(** left-to-right summation of up to 2^30 products meets the hypothesis on np.sum
    (C158_left_to_right), so the error is at most 24 m 2^-52 for m dimensions *)
Theorem C160_error_in_m :
  forall (X : arr2 f64), (0 < Z.of_nat (ncol X) <= 2 ^ 30)%Z -> moderate X ->
    forall i j, (i < nrow X)%nat -> (j < nrow X)%nat -> i <> j ->
      Rabs (B2R (at2 (cosine_distance left_to_right X) i j) - (1 - cosR (ncol X) (vec X i) (vec X j))) <= 24 * (INR (ncol X) * bpow radix2 (-52)).
Proof.
  intros X Hm HX i j Hi Hj Hne.
  assert (E52 : bpow radix2 (-52) = 2 * bpow radix2 (-53)) by (change (-52)%Z with (1 + -53)%Z; rewrite bpow_plus; reflexivity).
  pose proof (bpow_gt_0 radix2 (-53)) as P53. assert (N1 : 1 <= INR (ncol X)) by (apply (le_INR 1); lia).
  apply (C160_cosine_accuracy left_to_right (INR (ncol X) * bpow radix2 (-52)) X); auto.
  - split; [rewrite E52; nra|]. apply Rle_trans with (bpow radix2 30 * bpow radix2 (-52)).
    + apply Rmult_le_compat_r; [apply bpow_ge_0|]. rewrite INR_IZR_INZ. change (bpow radix2 30) with (IZR (2 ^ 30)). apply IZR_le. lia.
    + rewrite <- bpow_plus. apply bpow_le. lia.
  - now apply C158_left_to_right.
  - lia.
Qed.

Print Assumptions C160_cosine_accuracy.
Print Assumptions C160_order.
Print Assumptions C160_small_angle_witness.
Print Assumptions C160_error_in_m.
