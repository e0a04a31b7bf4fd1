(** Property C159: how far the hubness value computed in float64 is from the
    skewness of the k-occurrences (hubness.py:222, 297, 378, 711). *)
From Coq Require Import String.
From Coq Require Import ZArith Reals Lra List Arith Lia Bool Permutation.
From Flocq Require Import Core BinarySingleNaN.
From Verif Require Import Py Num NumT NumPow Arr Sort Conc S_Neighbors S_HubnessClass M_IO M_Hubness M_HubnessClass M_SkewFloat S_SkewFloat.
From Verif Require Import P_F64 P_LSFloat P_LSAcc P_NicdmAcc P_Skew Properties_Hubness Properties_HubnessClass P_SkewFloat Properties_LSFloat.
Import ListNotations.
Local Open Scope nat_scope.
Local Open Scope R_scope.

(** ** C159 (1): whole numbers are added without error, in whichever order *)
Theorem C159_any_order : forall vsum, (forall l, added_up l (vsum l)) -> sum_exact vsum.
Proof. intros vsum H l zs HF HB. exact (added_exact l (vsum l) (H l) zs HF HB). Qed.

(** ** C159 (2): hubness of a square matrix.  [tol] is scipy's threshold for a
    variance that counts as 0. *)
Theorem C159_hubness_accuracy :
  forall vsum vpow15 tol eps,
    bpow radix2 (-53) <= eps <= bpow radix2 (-20) ->
    (forall l, added_up l (vsum l)) -> pow15_close eps vpow15 ->
    nisfin tol = true -> 0 <= B2R tol <= bpow radix2 (-49) ->
  forall (argpart : list f64 -> list nat -> list nat), argpart_ok argpart ->
  forall sparse (D : arr2 f64) (k n : nat) metric se rps,
    (forall i, (i < nrow D)%nat -> Permutation (rps i) (seq 0 (ncol D))) ->
    nrow D = n -> ncol D = n -> (2 <= n)%nat -> (1 <= k)%nat ->
    (2 * Z.of_nat n ^ 3 * Z.of_nat (Nat.min k (n - 1)) < 2 ^ 53)%Z ->
  forall o,
    hubness_serial argpart sparse D (Z.of_nat k) metric se rps = Ok o \/
    hubness_parallel argpart sparse D (Z.of_nat k) metric se rps false (Ok o) ->
    let S := skew_of vsum vpow15 tol (out_Nk o) in
    nisfin S = true /\ Rabs (B2R S - hub_Sk o) <= 10 * eps * Rabs (hub_Sk o).
Proof.
  intros vsum vpow15 tol eps He Hs Hp Ft Bt argpart AP sparse D k n metric se rps Hrp Hr Hc Hn Hk Hsz o H S.
  destruct (C01_occurrences_conserved argpart AP sparse D k metric se rps Hrp o H) as (L & T & B & _). rewrite Hr, Hc in *.
  apply (skew64 eps vsum vpow15 tol He (C159_any_order vsum Hs) Hp (conj Ft Bt) (out_Nk o) n (Nat.min k (n - 1)) L); [lia|exact B|exact T|lia].
Qed.

(** ** C159 (3): in particular the sign is right *)
Theorem C159_sign :
  forall vsum vpow15 tol eps,
    bpow radix2 (-53) <= eps <= bpow radix2 (-20) ->
    (forall l, added_up l (vsum l)) -> pow15_close eps vpow15 ->
    nisfin tol = true -> 0 <= B2R tol <= bpow radix2 (-49) ->
  forall (argpart : list f64 -> list nat -> list nat), argpart_ok argpart ->
  forall sparse (D : arr2 f64) (k n : nat) metric se rps,
    (forall i, (i < nrow D)%nat -> Permutation (rps i) (seq 0 (ncol D))) ->
    nrow D = n -> ncol D = n -> (2 <= n)%nat -> (1 <= k)%nat ->
    (2 * Z.of_nat n ^ 3 * Z.of_nat (Nat.min k (n - 1)) < 2 ^ 53)%Z ->
  forall o,
    hubness_serial argpart sparse D (Z.of_nat k) metric se rps = Ok o \/
    hubness_parallel argpart sparse D (Z.of_nat k) metric se rps false (Ok o) ->
    let S := skew_of vsum vpow15 tol (out_Nk o) in
    (nlt n0 S = true <-> 0 < hub_Sk o) /\ (nlt S n0 = true <-> hub_Sk o < 0) /\ (neq S n0 = true <-> hub_Sk o = 0).
Proof.
  intros vsum vpow15 tol eps He Hs Hp Ft Bt argpart AP sparse D k n metric se rps Hrp Hr Hc Hn Hk Hsz o H S.
  destruct (C159_hubness_accuracy vsum vpow15 tol eps He Hs Hp Ft Bt argpart AP sparse D k n metric se rps Hrp Hr Hc Hn Hk Hsz o H) as (F & A).
  fold S in F, A. assert (E20 : eps <= / 1000) by (apply Rle_trans with (1 := proj2 He); change (bpow radix2 (-20)) with (/ IZR (2 ^ 20)); apply Rinv_le; [lra|apply IZR_le; lia]).
  destruct n0_f64 as (E0 & F0). set (h := hub_Sk o) in *.
  assert (A' : Rabs (B2R S - h) <= / 100 * Rabs h).
  { apply Rle_trans with (1 := A). apply Rmult_le_compat_r; [apply Rabs_pos|lra]. }
  assert (Q : neq S n0 = true <-> B2R S = 0).
  { change (neq S n0) with (Beqb S (n0 (V:=f64))). rewrite (Beqb_correct _ _ S (n0 (V:=f64)) F F0), E0. destruct (Req_bool_spec (B2R S) 0); split; intros; auto; discriminate. }
  rewrite (nlt_B2R n0 S F0 F), (nlt_B2R S n0 F F0), Q, E0. clear A Q.
  destruct (Rtotal_order h 0) as [Hh|[Hh|Hh]].
  - rewrite (Rabs_left h Hh) in A'. apply Rabs_le_inv in A'. repeat split; intros; lra.
  - rewrite Hh, Rabs_R0, Rmult_0_r, Rminus_0_r in A'. apply Rabs_le_inv in A'. repeat split; intros; lra.
  - rewrite (Rabs_pos_eq h) in A' by lra. apply Rabs_le_inv in A'. repeat split; intros; lra.
Qed.

(** ** C159 (4): attribute k_skewness_ of class Hubness, if the queries are as many
    as the training objects *)
Theorem C159_class_accuracy :
  forall vsum vpow15 tol eps,
    bpow radix2 (-53) <= eps <= bpow radix2 (-20) ->
    (forall l, added_up l (vsum l)) -> pow15_close eps vpow15 ->
    nisfin tol = true -> 0 <= B2R tol <= bpow radix2 (-49) ->
  forall argpart, argpart_ok argpart ->
  forall rdist vs vpow metric k (hub_size : f64) bs n_jobs rps has_self X Y f,
    (1 <= bs)%Z -> (1 <= k)%nat -> in_wf X rps ->
    fit_transform rdist vs vpow argpart metric k hub_size bs n_jobs rps has_self X Y (Ok f) ->
    (0 < in_rows X)%nat -> in_train metric X Y = in_rows X ->
    (2 * Z.of_nat (in_rows X) ^ 3 * Z.of_nat k < 2 ^ 53)%Z ->
    let S := skew_of vsum vpow15 tol (f_occ f) in
    let exact := skewR (map INR (f_occ f)) in
    nisfin S = true /\ Rabs (B2R S - exact) <= 10 * eps * Rabs exact.
Proof.
  intros vsum vpow15 tol eps He Hs Hp Ft Bt argpart AP rdist vs vpow metric k hs bs nj rps hself X Y f Hb Hk Hw H Hpos Ht Hsz S exact.
  destruct (C43_measures argpart AP rdist vs vpow metric k hs bs nj rps hself X Y f Hb Hk Hw Hpos H) as (L1 & L2 & O & T & _).
  set (n := in_rows X) in *. rewrite Ht in *.
  assert (B : forall c, In c (f_occ f) -> (c <= n)%nat).
  { intros c Hc. apply In_nth with (d := 0%nat) in Hc as (x & Hx & <-). rewrite O by lia. rewrite <- L1. clear. induction (f_nn f) as [|a l IH]; [apply le_n|]. cbn [filter]. destruct (existsb _ a); cbn [length]; lia. }
  assert (T' : sum_nat (f_occ f) = (n * k)%nat).
  { apply Nat2Z.inj. rewrite <- T. clear. induction (f_occ f) as [|a l IH]; [reflexivity|]. unfold sum_nat, total in *. cbn in *. lia. }
  assert (Kn : (k <= n)%nat).
  { destruct (Nat.le_gt_cases k n) as [|G]; [assumption|exfalso].
    assert (G' : (sum_nat (f_occ f) <= length (f_occ f) * n)%nat).
    { clear - B. induction (f_occ f) as [|a l IH]; [apply le_n|]. assert (a <= n)%nat by (apply B; now left).
      assert (sum_nat l <= length l * n)%nat by (apply IH; intros; apply B; now right). unfold sum_nat in *. cbn in *. lia. }
    rewrite T', L2 in G'. assert (n * n < n * k)%nat by (apply Nat.mul_lt_mono_pos_l; lia). lia. }
  apply (skew64 eps vsum vpow15 tol He (C159_any_order vsum Hs) Hp (conj Ft Bt) (f_occ f) n k L2); [lia|exact B|exact T'|].
  replace (2 * Z.of_nat n * Z.of_nat n * Z.of_nat n * Z.of_nat k)%Z with (2 * Z.of_nat n ^ 3 * Z.of_nat k)%Z by ring. exact Hsz.
Qed.

(** ** The hypotheses can be met: x * sqrt x for the power 1.5, summation from left
    to right or in pairs *)
Theorem C159_pow15 : pow15_close (bpow radix2 (-50)) (fun x => nmul x (nsqrt x)).
Proof.
  intros x F B. pose proof (bpow_gt_0 radix2 (-60)) as P. assert (Px : 0 < B2R x) by lra.
  assert (S1 : bpow radix2 (-30) <= sqrt (B2R x)) by (rewrite <- (sqrt_Rsqr (bpow radix2 (-30))) by apply bpow_ge_0; apply sqrt_le_1_alt; unfold Rsqr; rewrite <- bpow_plus; apply B).
  assert (S2 : sqrt (B2R x) <= bpow radix2 30) by (rewrite <- (sqrt_Rsqr (bpow radix2 30)) by apply bpow_ge_0; apply sqrt_le_1_alt; unfold Rsqr; rewrite <- bpow_plus; apply B).
  destruct (sqrt64 x F Px) as (Fs & Ls); [apply Rle_trans with (2 := S1); apply bpow_le; lia|]. pose proof u53_pos as Pu.
  assert (U : u53 <= / 1000) by (unfold u53; apply Rle_trans with (bpow radix2 (-10)); [apply bpow_le; lia|change (bpow radix2 (-10)) with (/ 1024); lra]).
  pose proof (lclose_range _ _ _ _ _ Ls (conj S1 S2) ltac:(lra)) as BS. pose proof (bpow_gt_0 radix2 (-30 - 1)).
  destruct (mul64 x (nsqrt x) F Fs) as (Fm & Lm).
  { split.
    - apply Rle_trans with (bpow radix2 (-60) * bpow radix2 (-30 - 1)); [rewrite <- bpow_plus; apply bpow_le; lia|apply Rmult_le_compat; [lra|lra|exact (proj1 B)|exact (proj1 BS)]].
    - apply Rle_trans with (bpow radix2 60 * bpow radix2 (30 + 1)); [apply Rmult_le_compat; [exact (Rlt_le _ _ Px)|apply Rle_trans with (2 := proj1 BS); lra|exact (proj2 B)|exact (proj2 BS)]|rewrite <- bpow_plus; apply bpow_le; lia]. }
  split; [exact Fm|]. assert (L : lclose (2 * u53 + (0 + 2 * u53)) (B2R (nmul x (nsqrt x))) (B2R x * sqrt (B2R x))).
  { apply lclose_trans with (1 := Lm). apply lclose_mul; [now apply lclose_refl|exact Ls]. }
  pose proof (lclose_abs _ _ _ L ltac:(lra)) as A. apply Rle_trans with (1 := A).
  assert (0 < B2R x * sqrt (B2R x)) by (apply Rmult_lt_0_compat; [lra|apply sqrt_lt_R0; lra]).
  apply Rmult_le_compat_r; [lra|]. unfold u53. change (-50)%Z with (3 + -53)%Z. rewrite bpow_plus. change (bpow radix2 3) with 8. fold u53. lra.
Qed.

Definition from_left (l : list f64) : f64 := fold_left nadd l n0.
Fixpoint in_pairs (fuel : nat) (l : list f64) : f64 :=
  match fuel, l with
  | O, _ | _, [] => fold_left nadd l n0
  | _, [x] => x
  | S m, _ => nadd (in_pairs m (firstn (Nat.div2 (length l)) l)) (in_pairs m (skipn (Nat.div2 (length l)) l))
  end.

Theorem C159_summation_orders : (forall l, added_up l (from_left l)) /\ (forall m l, added_up l (in_pairs m l)).
Proof.
  assert (A : forall l, added_up l (from_left l)).
  { intros l. induction l as [|x l IH] using rev_ind; [apply au_none|]. unfold from_left. rewrite fold_left_app. cbn [fold_left].
    apply au_two with l [x]; [apply Permutation_refl|exact IH|apply au_one]. }
  split; [exact A|]. intros m. induction m as [|m IH]; intros l; [destruct l; apply A|].
  destruct l as [|x [|y l]]; [apply A|apply au_one|]. cbn [in_pairs].
  apply au_two with (2 := IH _) (3 := IH _). rewrite firstn_skipn. apply Permutation_refl.
Qed.

(** eight objects, of which the first is a neighbour of all others: the value is
    positive, and does not depend on the order of summation *)
Example C159_case :
  let Nk := [7; 1; 0; 0; 0; 0; 0; 0]%nat in
  let v := skew_of from_left (fun x => nmul x (nsqrt x)) n0 Nk in
  let w := skew_of (in_pairs 10) (fun x => nmul x (nsqrt x)) n0 Nk in
  sum_nat Nk = (8 * 1)%nat /\ nlt (f64_of 17 (-3)) v = true /\ nlt v (f64_of 9 (-2)) = true /\ neq v w = true.
Proof. vm_compute. auto. Qed.

(** the three objects of Properties_Hubness.v meet the hypotheses *)
Example C159_run : exists o, hubness_serial ref_argpart false exD (Z.of_nat 1) "distance" true ex_rps = Ok o /\
  argpart_ok (ref_argpart (V:=f64)) /\ (forall i, (i < nrow exD)%nat -> Permutation (ex_rps i) (seq 0 (ncol exD))) /\
  nrow exD = 3%nat /\ ncol exD = 3%nat /\ (2 * Z.of_nat 3 ^ 3 * Z.of_nat (Nat.min 1 (3 - 1)) < 2 ^ 53)%Z /\
  (nisfin (n0 (V:=f64)) = true /\ 0 <= B2R (n0 (V:=f64)) <= bpow radix2 (-49)).
Proof.
  pose proof ex_run as E. change (Z.of_nat 1) with 1%Z. destruct (hubness_serial ref_argpart false exD 1 "distance" true ex_rps) as [o|]; [|discriminate E].
  exists o. split; [reflexivity|]. split; [exact ex_argpart|]. split; [exact ex_rps_wf|]. split; [reflexivity|]. split; [reflexivity|].
  split; [vm_compute; reflexivity|]. destruct n0_f64 as (Z0 & F0). split; [exact F0|]. rewrite Z0. split; [lra|apply bpow_ge_0].
Qed.

(** a matrix for which the theorem speaks: n = 70000 objects, k = 10 *)
Example C159_size : (2 * 70000 ^ 3 * 10 < 2 ^ 53)%Z.
Proof. vm_compute. reflexivity. Qed.

Print Assumptions C159_any_order.
Print Assumptions C159_hubness_accuracy.
Print Assumptions C159_sign.
Print Assumptions C159_class_accuracy.
Print Assumptions C159_pow15.
Print Assumptions C159_summation_orders.
