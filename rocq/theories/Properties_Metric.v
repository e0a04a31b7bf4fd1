(** C165: which secondary distances obey the triangle inequality. *)
From Coq Require Import String.
From Coq Require Import ZArith List Arith Lia Bool Reals Lra Permutation.
From Flocq Require Import Core BinarySingleNaN.
From Verif Require Import Py Num NumT Arr Sort Conc S_Neighbors S_SNN S_MP S_LS S_Centering M_IO M_SNN M_LS M_MPEmpiric M_Centering M_Dist S_Metric.
From Verif Require Import P_Neighbors P_F64 P_MPEmpiric P_MPEmpiric2 P_SNN P_LS3 P_LS P_NICDM P_MPDissim P_MPSparse Properties_SNN Properties_MP Properties_LS Properties_NICDM Properties_Centering.
Import ListNotations.
Local Open Scope nat_scope.
Local Open Scope R_scope.

(** ** Shared neighbours *)
Lemma filter_two (f g : nat -> bool) l :
  (length (filter f l) + length (filter g l) <= length l + length (filter (fun x => f x && g x) l))%nat.
Proof. induction l as [|x l IH]; cbn; [lia|]. destruct (f x), (g x); cbn; lia. Qed.
Lemma mem_true x l : existsb (Nat.eqb x) l = true <-> In x l.
Proof.
  rewrite existsb_exists. split; [intros (y & H & E); apply Nat.eqb_eq in E; now subst|].
  intros H. exists x. split; [exact H|apply Nat.eqb_refl].
Qed.
Lemma overlap_sym_le a b : NoDup a -> (overlap a b <= overlap b a)%nat.
Proof.
  intros N. unfold overlap. apply NoDup_incl_length; [now apply NoDup_filter|].
  intros x H. apply filter_In in H as (H1 & H2). apply mem_true in H2. apply filter_In. split; [exact H2|now apply mem_true].
Qed.
Lemma overlap_triangle a b c k : NoDup a -> NoDup b -> NoDup c -> length b = k ->
  (overlap a b + overlap b c <= k + overlap a c)%nat.
Proof.
  intros Na Nb Nc L. pose proof (overlap_sym_le a b Na) as S.
  pose proof (filter_two (fun x => existsb (Nat.eqb x) a) (fun x => existsb (Nat.eqb x) c) b) as F.
  assert (G : (length (filter (fun x => existsb (Nat.eqb x) a && existsb (Nat.eqb x) c) b) <= overlap a c)%nat).
  { unfold overlap. apply NoDup_incl_length; [now apply NoDup_filter|].
    intros x H. apply filter_In in H as (H1 & H2). apply andb_prop in H2 as (H2 & H3). apply filter_In. split; [now apply mem_true|exact H3]. }
  unfold overlap in *. lia.
Qed.
Lemma overlap_le a b k : length a = k -> (overlap a b <= k)%nat.
Proof. intros <-. unfold overlap. apply filter_length_le. Qed.
Lemma overlap_self a k : length a = k -> overlap a a = k.
Proof.
  intros <-. unfold overlap. f_equal.
  assert (H : forall l, incl l a -> filter (fun x => existsb (Nat.eqb x) a) l = l).
  { induction l as [|x l IH]; intros I; [reflexivity|]. cbn.
    rewrite (proj2 (mem_true x a) (I x (or_introl eq_refl))), IH; [reflexivity|]. intros y Hy. apply I. now right. }
  apply H, incl_refl.
Qed.

(** the value of c common neighbours *)
Definition snn_value (c k : nat) : f64 := nsub n1 (ndiv (nofnat c) (nofnat k)).
Lemma frac_range c k : (c <= k)%nat -> (0 < k)%nat -> 0 <= INR c / INR k <= 1.
Proof.
  intros Hc Hn. assert (P : 0 < INR k) by (apply lt_0_INR; lia).
  split; [apply Rmult_le_pos; [apply pos_INR|left; now apply Rinv_0_lt_compat]|].
  apply (Rmult_le_reg_r (INR k)); [assumption|].
  unfold Rdiv. rewrite Rmult_assoc, Rinv_l, Rmult_1_r, Rmult_1_l by lra. now apply le_INR.
Qed.
Lemma snn_value_close c k : (c <= k)%nat -> (0 < k)%nat -> (Z.of_nat k <= 2 ^ 53)%Z ->
  is_unit (snn_value c k) /\ Rabs (B2R (snn_value c k) - (1 - INR c / INR k)) <= bpow radix2 (-52).
Proof.
  intros Hc Hn Hb. destruct (frac_correct c k Hc Hn Hb) as (U1 & E1). destruct (compl_correct _ U1) as (U2 & E2).
  split; [exact U2|]. unfold snn_value. rewrite E2, E1. pose proof (frac_range c k Hc Hn) as B. set (q := INR c / INR k) in *.
  pose proof (rnd_err q B) as R1. pose proof (rnd_unit q B) as R2.
  assert (B3 : 0 <= 1 - rnd q <= 1) by lra. pose proof (rnd_err _ B3) as R3.
  assert (E : bpow radix2 (-52) = 2 * bpow radix2 (-53)) by (change 2 with (bpow radix2 1); rewrite <- bpow_plus; reflexivity).
  apply Rabs_le. apply Rabs_le_inv in R1. apply Rabs_le_inv in R3. lra.
Qed.
Lemma dyadic_exact c e : (c <= 2 ^ e)%nat -> (e <= 53)%nat -> rnd (INR c / INR (2 ^ e)) = INR c / INR (2 ^ e).
Proof.
  intros Hc He. apply rnd_gen.
  assert (P : INR (2 ^ e) = bpow radix2 (Z.of_nat e)).
  { rewrite pow_INR. change (INR 2) with 2. rewrite <- (IZR_Zpower radix2) by lia. change (radix_val radix2) with 2%Z.
    rewrite <- pow_IZR. reflexivity. }
  rewrite P. unfold Rdiv. rewrite <- bpow_opp, INR_IZR_INZ.
  change (SpecFloat.fexp 53 1024) with (FLT_exp (3 - 1024 - 53) 53).
  destruct (Z.eq_dec (Z.of_nat c) (2 ^ 53)) as [E|E].
  - rewrite E. change (IZR (2 ^ 53)) with (bpow radix2 53). rewrite <- bpow_plus. apply generic_format_bpow. unfold FLT_exp. lia.
  - apply generic_format_FLT. exists (Float radix2 (Z.of_nat c) (- Z.of_nat e)); cbn [Fnum Fexp]; [reflexivity| |lia].
    assert (2 ^ e <= 2 ^ 53)%nat by (apply Nat.pow_le_mono_r; lia).
    assert (Z.of_nat (2 ^ e) <= 2 ^ 53)%Z.
    { rewrite Nat2Z.inj_pow. change (Z.of_nat 2) with 2%Z. apply Z.pow_le_mono_r; lia. }
    change (radix_val radix2 ^ 53)%Z with (2 ^ 53)%Z. lia.
Qed.
Lemma snn_value_exact c e : (c <= 2 ^ e)%nat -> (e <= 53)%nat -> B2R (snn_value c (2 ^ e)) = 1 - INR c / INR (2 ^ e).
Proof.
  intros Hc He. assert (P : (0 < 2 ^ e)%nat) by (apply Nat.neq_0_lt_0, Nat.pow_nonzero; lia).
  assert (Hb : (Z.of_nat (2 ^ e) <= 2 ^ 53)%Z).
  { rewrite Nat2Z.inj_pow. change (Z.of_nat 2) with 2%Z. apply Z.pow_le_mono_r; lia. }
  destruct (frac_correct c (2 ^ e) Hc P Hb) as (U1 & E1). destruct (compl_correct _ U1) as (U2 & E2).
  unfold snn_value. rewrite E2, E1, dyadic_exact by assumption.
  replace (1 - INR c / INR (2 ^ e)) with (INR (2 ^ e - c) / INR (2 ^ e)).
  - apply dyadic_exact; lia.
  - rewrite minus_INR by exact Hc. assert (0 < INR (2 ^ e)) by (apply lt_0_INR; exact P). field. lra.
Qed.

(** C165: distances by shared neighbours obey the triangle inequality up to rounding errors, and
    exactly if k is a power of two *)
Theorem C165_snn_triangle :
  forall (argpart : list f64 -> list nat -> list nat), argpart_ok argpart ->
  forall (D : arr2 f64) k, nrow D = ncol D -> (0 < k < nrow D)%nat -> (Z.of_nat k <= 2 ^ 53)%Z ->
  exists M, snn_serial argpart D (Z.of_nat k) "distance" = Ok M /\
    forall i j l, (i < nrow D)%nat -> (j < nrow D)%nat -> (l < nrow D)%nat ->
      B2R (at2 M i j) <= B2R (at2 M i l) + B2R (at2 M l j) + 3 * bpow radix2 (-52) /\
      ((exists e, (e <= 53)%nat /\ k = (2 ^ e)%nat) -> B2R (at2 M i j) <= B2R (at2 M i l) + B2R (at2 M l j)).
Proof.
  intros ap AP D k Sq Hk Hb.
  destruct (C14_snn_formula ap AP "distance" D k eq_refl Sq ltac:(lia) Hb ltac:(left; lia)) as (M & hood & HM & R & C & K & Dg & A).
  exists M. split; [exact HM|]. intros i j l Hi Hj Hl.
  assert (KS : forall x, (x < nrow D)%nat -> length (hood x) = k /\ NoDup (hood x)).
  { intros x Hx. destruct (K x Hx) as ([L N _ _] & _). auto. }
  assert (V : forall a b, (a < nrow D)%nat -> (b < nrow D)%nat -> a <> b -> at2 M a b = snn_value (overlap (hood a) (hood b)) k).
  { intros a b Ha Hb' Hn. now apply (A a b Ha Hb' Hn). }
  assert (Z0 : forall a, (a < nrow D)%nat -> B2R (at2 M a a) = 0).
  { intros a Ha. rewrite (Dg a Ha). apply n0_f64. }
  assert (PK : 0 < INR k) by (apply lt_0_INR; lia).
  (* the exact values *)
  set (x := fun a b => 1 - INR (overlap (hood a) (hood b)) / INR k).
  assert (X0 : forall a, (a < nrow D)%nat -> x a a = 0).
  { intros a Ha. unfold x. rewrite (overlap_self _ k) by apply KS, Ha. field. lra. }
  assert (OL : forall a b, (a < nrow D)%nat -> (overlap (hood a) (hood b) <= k)%nat) by (intros a b Ha; apply overlap_le, KS, Ha).
  assert (XT : x i j <= x i l + x l j).
  { unfold x. pose proof (overlap_triangle (hood i) (hood l) (hood j) k ltac:(now apply KS) ltac:(now apply KS) ltac:(now apply KS) ltac:(now apply KS)) as T.
    apply le_INR in T. rewrite !plus_INR in T.
    apply (Rmult_le_reg_r (INR k)); [exact PK|].
    replace ((1 - INR (overlap (hood i) (hood j)) / INR k) * INR k) with (INR k - INR (overlap (hood i) (hood j))) by (field; lra).
    replace ((1 - INR (overlap (hood i) (hood l)) / INR k + (1 - INR (overlap (hood l) (hood j)) / INR k)) * INR k)
      with (2 * INR k - INR (overlap (hood i) (hood l)) - INR (overlap (hood l) (hood j))) by (field; lra). lra. }
  split.
  - assert (E : forall a b, (a < nrow D)%nat -> (b < nrow D)%nat -> Rabs (B2R (at2 M a b) - x a b) <= bpow radix2 (-52)).
    { intros a b Ha Hb'. destruct (Nat.eq_dec a b) as [->|Hn].
      - rewrite Z0, X0 by assumption. rewrite Rminus_0_r, Rabs_R0. apply bpow_ge_0.
      - rewrite V by assumption. apply snn_value_close; [now apply OL|lia|exact Hb]. }
    pose proof (E i j Hi Hj) as E1. pose proof (E i l Hi Hl) as E2. pose proof (E l j Hl Hj) as E3.
    apply Rabs_le_inv in E1. apply Rabs_le_inv in E2. apply Rabs_le_inv in E3. lra.
  - intros (e & He & Ke).
    assert (E : forall a b, (a < nrow D)%nat -> (b < nrow D)%nat -> B2R (at2 M a b) = x a b).
    { intros a b Ha Hb'. destruct (Nat.eq_dec a b) as [->|Hn]; [now rewrite Z0, X0|].
      rewrite V by assumption. unfold x. rewrite Ke. apply snn_value_exact; [rewrite <- Ke; now apply OL|exact He]. }
    rewrite !E by assumption. exact XT.
Qed.

(** ** Mutual proximity *)
(** C165: if the distances are an ultrametric, so are their mutual proximities (no rounding error
    can break this) *)
Theorem C165_mp_ultrametric :
  forall (D M : arr2 f64), (Z.of_nat (nrow D) <= 2 ^ 53)%Z -> mp_empiric_full D "distance" TNone = Ok M ->
    is_ultra (nrow D) (at2 D) -> is_ultra (nrow D) (at2 M).
Proof.
  intros D M Hb HM [Sy Tr].
  assert (Sq : nrow D = ncol D) by (apply mp_full_inv in HM; apply HM).
  destruct (C07_mp_distance_formula D Hb Sq) as (M' & HM' & R & C & Dg & F). rewrite HM in HM'. injection HM' as <-.
  set (n := nrow D) in *.
  assert (V : forall a b, (a < n)%nat -> (b < n)%nat -> a <> b ->
     at2 M a b = nsub n1 (ndiv (nofnat (farther_from_both D n a b (at2 D a b))) (nofnat n))).
  { intros a b Ha Hb' Hn. destruct (Nat.lt_ge_cases a b) as [L|L].
    - rewrite (proj1 (F a b L Hb')), (Sy b a) by assumption. reflexivity.
    - destruct (F b a ltac:(lia) Ha) as (E1 & E2). rewrite E2, E1. unfold farther_from_both.
      erewrite count_if_ext; [reflexivity|]. cbv beta. intros x Hx. rewrite (andb_comm (negb (x =? b)%nat)), (andb_comm (nlt _ (at2 D b x))). reflexivity. }
  assert (U : forall a b, (a < n)%nat -> (b < n)%nat -> is_unit (at2 M a b)).
  { intros a b Ha Hb'. destruct (Nat.eq_dec a b) as [->|Hn].
    - rewrite Dg by assumption. destruct n0_f64 as (E1 & E2). split; [exact E2|]. split; [reflexivity|]. rewrite E1. lra.
    - rewrite V by assumption. apply compl_correct, frac_unit; [apply count_if_le|lia|exact Hb]. }
  assert (RF : forall a b, (a < n)%nat -> (b < n)%nat -> nle (at2 M a b) (at2 M a b) = true).
  { intros a b Ha Hb'. destruct (U a b Ha Hb') as (Fi & _). apply nle_B2R; [exact Fi|exact Fi|lra]. }
  (* the longer side has no more farther points *)
  assert (S : forall a b c, (a < n)%nat -> (b < n)%nat -> (c < n)%nat -> a <> b -> a <> c ->
     nle (at2 D a b) (at2 D a c) = true -> nle (at2 M a b) (at2 M a c) = true).
  { intros a b c Ha Hb' Hc Nab Nac L. rewrite (V a b), (V a c) by assumption.
    apply compl_anti; [apply frac_unit; [apply count_if_le|lia|exact Hb]|apply frac_unit; [apply count_if_le|lia|exact Hb]|].
    apply frac_mono; [split; [|apply count_if_le]|lia|exact Hb].
    apply count_if_mono. intros x Hx H. apply andb_prop in H as (H & H3). apply andb_prop in H as (H1 & H2). apply andb_prop in H3 as (H3 & H4).
    pose proof (nle_lt_trans f64_cmp _ _ _ L H3) as L1.
    assert (Nx : x <> b). { intros ->. rewrite (nle_lt_false f64_cmp _ _ L) in H3. discriminate. }
    apply Nat.eqb_neq in Nx. rewrite H1, L1, Nx. cbn [negb andb].
    destruct (Tr a x b Ha Hx Hb') as [T|T].
    - rewrite (nle_lt_false f64_cmp _ _ T) in L1. discriminate.
    - exact (nlt_le_trans f64_cmp _ _ _ L1 T). }
  assert (SM : forall a b, (a < n)%nat -> (b < n)%nat -> at2 M a b = at2 M b a).
  { intros a b Ha Hb'. destruct (Nat.lt_trichotomy a b) as [L|[->|L]]; [symmetry; now apply F|reflexivity|now apply F]. }
  split; [exact SM|].
  intros i j l Hi Hj Hl. destruct (Nat.eq_dec i j) as [->|Nij].
  { left. destruct n0_f64 as (E1 & E2). destruct (U j l Hj Hl) as (Fi & _ & B). rewrite Dg by assumption.
    apply nle_B2R; [exact E2|exact Fi|]. rewrite E1. lra. }
  destruct (Nat.eq_dec i l) as [->|Nil]; [right; now apply RF|].
  destruct (Nat.eq_dec j l) as [->|Njl]; [left; now apply RF|].
  destruct (Tr i j l Hi Hj Hl) as [T|T].
  - left. now apply S.
  - right. rewrite (SM i j), (SM l j) by assumption. apply S; try assumption; [congruence|].
    rewrite (Sy j i), (Sy j l) by assumption. exact T.
Qed.

(** ** Counterexamples *)
Ltac cases5 i H := destruct i as [|[|[|[|[|i]]]]]; try (exfalso; lia).

(** distances between objects on a line, as floats *)
Definition line64 (p : list Z) : arr2 f64 :=
  of_rows nnan (map (fun a => map (fun b => nofZ (Z.abs (a - b))) p) p).
Definition exMP : arr2 f64 := line64 [0; 10; 20; -15; -16; -17; -18]%Z.

Lemma at2_line p i j : (i < length p)%nat -> (j < length p)%nat ->
  at2 (line64 p) i j = nofZ (Z.abs (nth i p 0%Z - nth j p 0%Z)).
Proof.
  intros Hi Hj. unfold line64, of_rows. cbn [at2].
  rewrite (nth_indep _ _ ((fun a => map (fun b => nofZ (Z.abs (a - b))) p) 0%Z)) by (rewrite map_length; exact Hi).
  rewrite (map_nth (fun a => map (fun b => nofZ (V:=f64) (Z.abs (a - b))) p)).
  rewrite (nth_indep _ _ ((fun b => nofZ (V:=f64) (Z.abs (nth i p 0%Z - b))) 0%Z)) by (rewrite map_length; exact Hj).
  now rewrite (map_nth (fun b => nofZ (V:=f64) (Z.abs (nth i p 0%Z - b)))).
Qed.
Lemma line_metric p : NoDup p -> (forall z, In z p -> (Z.abs z <= 2 ^ 40)%Z) ->
  is_metric (length p) (fun i j => B2R (at2 (line64 p) i j)).
Proof.
  intros N B.
  assert (E : forall i j, (i < length p)%nat -> (j < length p)%nat ->
     B2R (at2 (line64 p) i j) = IZR (Z.abs (nth i p 0%Z - nth j p 0%Z))).
  { intros i j Hi Hj. rewrite at2_line by assumption. apply f64_ofZ_exact.
    pose proof (B _ (nth_In p 0%Z Hi)). pose proof (B _ (nth_In p 0%Z Hj)). lia. }
  split.
  - intros i Hi. rewrite E, Z.sub_diag by assumption. reflexivity.
  - intros i j Hi Hj Hn. rewrite E by assumption. apply IZR_lt.
    assert (nth i p 0%Z <> nth j p 0%Z) by (intros Q; apply Hn; now apply (proj1 (NoDup_nth p 0%Z) N)). lia.
  - intros i j Hi Hj. rewrite !E by assumption. f_equal. lia.
  - intros i j l Hi Hj Hl. rewrite !E by assumption. rewrite <- plus_IZR. apply IZR_le. lia.
Qed.

(** C165: the mutual proximities of a metric need not obey the triangle inequality *)
Theorem C165_mp_not_metric :
  exists D : arr2 f64, is_metric (nrow D) (fun i j => B2R (at2 D i j)) /\
  exists M, mp_empiric_full D "distance" TNone = Ok M /\
    nlt (nadd (at2 M 0 1) (at2 M 1 2)) (at2 M 0 2) = true.
Proof.
  exists exMP. split.
  - apply (line_metric [0; 10; 20; -15; -16; -17; -18]%Z).
    + repeat constructor; cbn; intuition discriminate.
    + intros z H. cbn in H. intuition (subst; lia).
  - eexists. split; [now apply mp_full_ok|]. vm_compute. reflexivity.
Qed.

(** ten objects, all distances 1 or 2 *)
Definition exSNNd (i j : nat) : Z :=
  let near q p := match q with 0 => (3 <=? p) && (p <=? 7) | 1 => (4 <=? p) && (p <=? 8) | 2 => (5 <=? p) && (p <=? 9) | _ => false end%nat in
  if (i =? j)%nat then 0%Z else if (near i j || near j i)%bool then 1%Z else 2%Z.
Definition exSNN : arr2 f64 := of_rows nnan (map (fun i => map (fun j => nofZ (exSNNd i j)) (seq 0 10)) (seq 0 10)).

(** C165: rounding errors do break the triangle inequality of the shared neighbours *)
Theorem C165_snn_rounding :
  exists (D : arr2 f64) M, is_metric (nrow D) (fun i j => B2R (at2 D i j)) /\
    snn_serial ref_argpart D 5 "distance" = Ok M /\
    nlt (nadd (at2 M 0 1) (at2 M 1 2)) (at2 M 0 2) = true.
Proof.
  assert (C : match snn_serial ref_argpart exSNN 5 "distance" with
              | Ok M => nlt (nadd (at2 M 0 1) (at2 M 1 2)) (at2 M 0 2) | Raise _ => false end = true) by (vm_compute; reflexivity).
  destruct (snn_serial ref_argpart exSNN 5 "distance") as [M|] eqn:HM; [|discriminate].
  exists exSNN, M. split; [|split; [exact HM|exact C]].
  assert (E : forall i j, (i < 10)%nat -> (j < 10)%nat -> B2R (at2 exSNN i j) = IZR (exSNNd i j)).
  { intros i j Hi Hj. unfold exSNN, of_rows. cbn [at2].
    rewrite (nth_indep _ _ ((fun i => map (fun j => nofZ (V:=f64) (exSNNd i j)) (seq 0 10)) 0%nat)) by (rewrite map_length, seq_length; exact Hi).
    rewrite (map_nth (fun i => map (fun j => nofZ (V:=f64) (exSNNd i j)) (seq 0 10))), seq_nth by exact Hi.
    rewrite (nth_indep _ _ ((fun j => nofZ (V:=f64) (exSNNd (0 + i) j)) 0%nat)) by (rewrite map_length, seq_length; exact Hj).
    rewrite (map_nth (fun j => nofZ (V:=f64) (exSNNd (0 + i) j))), seq_nth by exact Hj. cbn [Nat.add].
    apply f64_ofZ_exact. unfold exSNNd. destruct (i =? j)%nat; [cbn; lia|]. match goal with |- context [if ?c then _ else _] => destruct c end; cbn; lia. }
  assert (R : forall i j, i <> j -> (1 <= exSNNd i j <= 2)%Z).
  { intros i j H. unfold exSNNd. apply Nat.eqb_neq in H. rewrite H. match goal with |- context [if ?c then _ else _] => destruct c end; lia. }
  assert (Z0 : forall i, exSNNd i i = 0%Z) by (intros i; unfold exSNNd; now rewrite Nat.eqb_refl).
  assert (S : forall i j, exSNNd i j = exSNNd j i).
  { intros i j. unfold exSNNd. rewrite Nat.eqb_sym, orb_comm. reflexivity. }
  change (nrow exSNN) with 10%nat. split.
  - intros i Hi. rewrite E, Z0 by assumption. reflexivity.
  - intros i j Hi Hj Hn. rewrite E by assumption. apply IZR_lt. pose proof (R i j Hn). lia.
  - intros i j Hi Hj. rewrite !E by assumption. now rewrite S.
  - intros i j l Hi Hj Hl. rewrite !E by assumption. rewrite <- plus_IZR. apply IZR_le.
    destruct (Nat.eq_dec i l) as [->|N1]; [rewrite Z0; lia|]. destruct (Nat.eq_dec l j) as [->|N2]; [rewrite Z0; lia|].
    pose proof (R i l N1). pose proof (R l j N2). destruct (Nat.eq_dec i j) as [->|N3]; [rewrite Z0; lia|]. pose proof (R i j N3). lia.
Qed.

(** five objects: 0 - 1 - 2 at distance 1, two more objects near 0 and 2 and far from 1 *)
Definition exD5 (i j : nat) : R :=
  nth j (nth i [[0; 1; 2; 1; 1]; [1; 0; 1; 2; 2]; [2; 1; 0; 1; 1]; [1; 2; 1; 0; 2]; [1; 2; 1; 2; 0]] []) 0.
Definition exX5 : arr2 xr := exL exD5 5.
Lemma exD5_metric : is_metric 5 (real_at exX5).
Proof.
  split.
  - intros i Hi. cases5 i Hi; reflexivity.
  - intros i j Hi Hj Hn. cases5 i Hi; cases5 j Hj; try contradiction; unfold real_at; cbn; lra.
  - intros i j Hi Hj. cases5 i Hi; cases5 j Hj; reflexivity.
  - intros i j l Hi Hj Hl. cases5 i Hi; cases5 j Hj; cases5 l Hl; unfold real_at; cbn; lra.
Qed.

(** C165: neither do local scaling ... *)
Theorem C165_ls_not_metric :
  exists (D : arr2 xr) L, is_metric (nrow D) (real_at D) /\
    local_scaling xexp ref_part D 4 "distance" None 4 2 (Ok L) /\
    nlt (nadd (at2 L 0 1) (at2 L 1 2)) (at2 L 0 2) = true.
Proof.
  destruct (C29_some_outcome xexp ref_part exX5 (Z.of_nat 4) "distance" None 4 2) as (res & H).
  destruct (C27_ls_formula ref_part exX5 5 4 None 4 2 res) as (L & r & -> & _ & _ & K & _ & _ & F & _); auto.
  - apply ref_part_ok with (1 := xr_cmp).
  - simpl. lia.
  - unfold workers. simpl. lia.
  - exists exX5, L. split; [exact exD5_metric|]. split; [exact H|].
    assert (R : forall i, (i < 3)%nat -> r i = 2).
    { intros i Hi. assert (K2 := K i ltac:(lia)). enough (Q : XFin (r i) = XFin 2) by (now injection Q). apply (kth_smallest_unique _ _ _ _ K2).
      destruct i as [|[|[|i]]]; [| | |lia]; unfold others; simpl; unfold exD5; simpl; (split; [first [left; reflexivity|right; left; reflexivity|right; right; left; reflexivity]|]); simpl;
        repeat match goal with |- context [Rlt_dec ?a ?b] => destruct (Rlt_dec a b); try lra | |- context [Rle_dec ?a ?b] => destruct (Rle_dec a b); try lra end; simpl; lia. }
    assert (G : forall i j, (i < j)%nat -> (j < 3)%nat -> at2 L i j = XFin (1 - exp (- (real_at exX5 i j * real_at exX5 i j) / (2 * 2)))).
    { intros i j Hij Hj. rewrite F; [|exact Hij|lia|rewrite !R by lia; lra]. now rewrite !R by lia. }
    rewrite !G by lia. unfold real_at, exX5, exL, exD5. cbn [at2 nth fin_of].
    pose proof (exp_ineq1 (- (1 / 4)) ltac:(lra)) as A. pose proof (exp_ineq1 1 ltac:(lra)) as B.
    replace (- (1 * 1) / (2 * 2)) with (- (1 / 4)) by lra. replace (- (2 * 2) / (2 * 2)) with (- (1)) by lra.
    pose proof (exp_pos 1) as P. pose proof (exp_Ropp 1) as Q. rewrite Q.
    assert (I : / exp 1 < / 2) by (apply Rinv_lt_contravar; [apply Rmult_lt_0_compat; lra|lra]).
    cbn [nadd nlt Num_xr xadd xlt]. match goal with |- context [Rlt_dec ?a ?b] => destruct (Rlt_dec a b); [reflexivity|lra] end.
Qed.

(** ... nor NICDM ... *)
Theorem C165_nicdm_not_metric :
  exists (D : arr2 xr) L, is_metric (nrow D) (real_at D) /\
    nicdm xexp xln xsum ref_part D 4 "distance" None 4 3 (Ok L) /\
    nlt (nadd (at2 L 0 1) (at2 L 1 2)) (at2 L 0 2) = true.
Proof.
  destruct (C29_nicdm_some_outcome xexp xln xsum ref_part exX5 (Z.of_nat 4) "distance" None 4 3) as (res & H).
  destruct (C32_nicdm_formula ref_part exX5 5 4 None 4 3 res) as (L & r & -> & _ & _ & K & _ & _ & F); auto.
  - apply ref_part_ok with (1 := xr_cmp).
  - simpl. lia.
  - exists exX5, L. split; [exact exD5_metric|]. split; [exact H|].
    assert (S2 : forall i, (i < 5)%nat -> r i = rsum (map fin_of (others exX5 (seq 0 5) i)) / 4).
    { intros i Hi. destruct (K i Hi) as (s & (Ls & rest & P & _) & ->). change (fold_right Rplus 0%R s) with (rsum s).
      assert (rest = []).
      { apply Permutation_length in P. rewrite app_length, Ls in P.
        assert (HL : length (others exX5 (training 5 None) i) = 4%nat) by (cases5 i Hi; reflexivity).
        rewrite HL in P. destruct rest; [reflexivity|cbn [length] in P; lia]. }
      subst rest. rewrite app_nil_r in P. simpl training in P. rewrite (rsum_perm (map fin_of (others exX5 (seq 0 5) i)) (map fin_of (map XFin s))).
      - rewrite map_map. cbn [fin_of]. rewrite map_id. replace (INR 4) with 4%R by (simpl; lra). reflexivity.
      - now apply Permutation_map. }
    assert (R0 : r 0%nat = 5 / 4) by (rewrite S2 by lia; simpl; unfold exD5; simpl; lra).
    assert (R1 : r 1%nat = 3 / 2) by (rewrite S2 by lia; simpl; unfold exD5; simpl; lra).
    assert (R2 : r 2%nat = 5 / 4) by (rewrite S2 by lia; simpl; unfold exD5; simpl; lra).
    assert (RP : forall i, (i < 5)%nat -> 0 < r i) by (intros i Hi; rewrite S2 by lia; cases5 i Hi; simpl; unfold exD5; simpl; lra).
    specialize (F RP). cbv zeta in F. set (g := exp _) in F. assert (G : 0 < g) by apply exp_pos. clearbody g.
    rewrite (proj1 (F 0%nat 1%nat ltac:(lia) ltac:(lia))), (proj1 (F 1%nat 2%nat ltac:(lia) ltac:(lia))), (proj1 (F 0%nat 2%nat ltac:(lia) ltac:(lia))).
    rewrite R0, R1, R2. unfold real_at, exX5, exL, exD5. cbn [at2 nth fin_of].
    rewrite (Rmult_comm (3 / 2)), sqrt_square by lra.
    (* sqrt (15/8) > 5/4 *)
    assert (Q : 5 / 4 < sqrt (5 / 4 * (3 / 2))).
    { rewrite <- (sqrt_square (5 / 4)) at 1 by lra. apply sqrt_lt_1; lra. }
    set (q := sqrt (5 / 4 * (3 / 2))) in *. clearbody q.
    assert (I : / q < / (5 / 4)) by (apply Rinv_lt_contravar; [apply Rmult_lt_0_compat; lra|exact Q]).
    assert (J : g * / q < g * / (5 / 4)) by (apply Rmult_lt_compat_l; assumption).
    assert (T : g * 1 / q + g * 1 / q < g * 2 / (5 / 4)) by (unfold Rdiv in *; lra).
    cbn [nadd nlt Num_xr xadd xlt]. match goal with |- context [Rlt_dec ?a ?b] => destruct (Rlt_dec a b); [reflexivity|contradiction] end.
Qed.

(** ... nor the cosine distance *)
Theorem C165_cosine_not_metric :
  exists x : nat -> nat -> R, (forall i, (i < 3)%nat -> exists f, (f < 2)%nat /\ x i f <> 0) /\
    let D := cosine_distance xsum (rmat 3 2 x) in nlt (nadd (at2 D 0 1) (at2 D 1 2)) (at2 D 0 2) = true.
Proof.
  set (x := fun i f => nth f (nth i [[1; 0]; [1; 1]; [0; 1]] []) 0). exists x.
  assert (Hx : forall i, (i < 3)%nat -> exists f, (f < 2)%nat /\ x i f <> 0).
  { intros [|[|[|i]]] Hi; [exists 0%nat|exists 0%nat|exists 1%nat|lia]; (split; [lia|]); unfold x; cbn; lra. }
  split; [exact Hx|]. intros D.
  destruct (C37_cosine_distance 3 2 x Hx) as (_ & _ & _ & _ & _ & F & _). fold D in F.
  rewrite !F by lia. 
  assert (N0 : normR 2 (x 0%nat) = 1). { unfold normR. replace (dotR 2 (x 0%nat) (x 0%nat)) with 1 by (unfold dotR, x; simpl; ring). apply sqrt_1. }
  assert (N2 : normR 2 (x 2%nat) = 1). { unfold normR. replace (dotR 2 (x 2%nat) (x 2%nat)) with 1 by (unfold dotR, x; simpl; ring). apply sqrt_1. }
  assert (N1 : normR 2 (x 1%nat) = sqrt 2). { unfold normR. f_equal. unfold dotR, x; simpl; ring. }
  assert (D1 : dotR 2 (x 0%nat) (x 1%nat) = 1) by (unfold dotR, x; simpl; ring).
  assert (D2 : dotR 2 (x 1%nat) (x 2%nat) = 1) by (unfold dotR, x; simpl; ring).
  assert (D3 : dotR 2 (x 0%nat) (x 2%nat) = 0) by (unfold dotR, x; simpl; ring).
  unfold cosR. rewrite N0, N1, N2, D1, D2, D3.
  assert (Q : 0 < sqrt 2 < 2).
  { split; [apply sqrt_lt_R0; lra|]. rewrite <- (sqrt_square 2) at 2 by lra. apply sqrt_lt_1; lra. }
  assert (I : / 2 < / sqrt 2) by (apply Rinv_lt_contravar; [apply Rmult_lt_0_compat; lra|apply Q]).
  assert (T : 1 - 1 / (1 * sqrt 2) + (1 - 1 / (sqrt 2 * 1)) < 1 - 0 / (1 * 1)).
  { rewrite Rmult_1_l, Rmult_1_r. unfold Rdiv. lra. }
  cbn [nadd nlt Num_xr xadd xlt]. match goal with |- context [Rlt_dec ?a ?b] => destruct (Rlt_dec a b); [reflexivity|contradiction] end.
Qed.

(** an ultrametric of four objects: two pairs *)
Definition exU : arr2 f64 := of_rows nnan (map (map nofZ) [[0; 1; 3; 3]; [1; 0; 3; 3]; [3; 3; 0; 2]; [3; 3; 2; 0]]%Z).
Example C165_ultra_case : is_ultra (nrow exU) (at2 exU) /\ exists M, mp_empiric_full exU "distance" TNone = Ok M /\
  nlt (at2 M 0 1) (at2 M 0 2) = true.
Proof.
  split.
  - split.
    + intros [|[|[|[|i]]]] [|[|[|[|j]]]] Hi Hj; try (cbn in Hi, Hj; lia); reflexivity.
    + intros [|[|[|[|i]]]] [|[|[|[|j]]]] [|[|[|[|l]]]] Hi Hj Hl; try (cbn in Hi, Hj, Hl; lia);
        first [left; vm_compute; reflexivity|right; vm_compute; reflexivity].
  - eexists. split; [now apply mp_full_ok|]. vm_compute. reflexivity.
Qed.

Print Assumptions C165_snn_triangle.
Print Assumptions C165_snn_rounding.
Print Assumptions C165_mp_ultrametric.
Print Assumptions C165_mp_not_metric.
Print Assumptions C165_ls_not_metric.
Print Assumptions C165_nicdm_not_metric.
Print Assumptions C165_cosine_not_metric.
