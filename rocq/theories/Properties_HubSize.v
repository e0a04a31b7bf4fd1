(** Property C183: the threshold hub_size * k of the class Hubness in float64. *)
From Coq Require Import String.
From Coq Require Import ZArith Reals Lra Psatz List Arith Lia Bool Permutation.
From Flocq Require Import Core BinarySingleNaN.
From Verif Require Import Py Num NumT Arr Sort S_Neighbors M_IO M_HubnessClass.
From Verif Require Import P_F64 P_LSFloat P_Mem P_LSAcc P_HubnessClass P_HubnessClass2 S_HubnessClass Properties_HubnessClass.
Import ListNotations.
Local Open Scope nat_scope.
Local Open Scope R_scope.

(** the test of hubness.py:667, one object with [n] occurrences *)
Definition hub_test (h : f64) (k n : nat) : bool := nle (nmul h (nofnat k)) (nofnat n).

Lemma nofnat_exact n : (Z.of_nat n <= 2 ^ 53)%Z -> B2R (nofnat (V:=f64) n) = INR n /\ is_finite (nofnat (V:=f64) n) = true.
Proof. intros H. unfold nofnat. destruct (f64_ofZ_exact (Z.of_nat n)) as (E & F); [lia|]. rewrite INR_IZR_INZ. now split. Qed.

Lemma rnd_INR n : (Z.of_nat n <= 2 ^ 53)%Z -> rnd (INR n) = INR n.
Proof.
  intros H. destruct (nofnat_exact n H) as [E _]. rewrite <- E. apply rnd_gen. apply generic_format_B2R.
Qed.
Lemma small_big n : (Z.of_nat n <= 2 ^ 53)%Z -> 0 <= INR n < bpow radix2 1024.
Proof.
  intros H. split; [apply pos_INR|]. rewrite INR_IZR_INZ. apply Rle_lt_trans with (bpow radix2 53); [|apply bpow_lt; lia].
  change (bpow radix2 53) with (IZR (2 ^ 53)). now apply IZR_le.
Qed.

(** the test is that of the rounded product *)
Lemma hub_test_rnd (h : f64) k n : is_finite h = true -> 0 < B2R h -> (1 <= k)%nat -> (Z.of_nat k <= 2 ^ 53)%Z -> (Z.of_nat n <= 2 ^ 53)%Z ->
  (hub_test h k n = true <-> rnd (B2R h * INR k) <= INR n).
Proof.
  intros Fh Ph Hk Bk Bn. destruct (nofnat_exact k Bk) as [Ek Fk]. destruct (nofnat_exact n Bn) as [En Fn].
  assert (Pk : 0 < INR k) by (apply lt_0_INR; lia).
  assert (P : 0 <= B2R h * INR k) by nra.
  unfold hub_test. destruct (mul_cases h (nofnat k) Fh Fk) as (_ & [(_ & F & R)|(B & I)]).
  - rewrite nle_B2R by assumption. rewrite R, Ek, En. reflexivity.
  - rewrite Ek in B. rewrite Rabs_pos_eq in B by (rewrite <- rnd_0; now apply rnd_le). pose proof (small_big n Bn) as Sb.
    assert (Sg : xorb (Bsign h) (Bsign (nofnat k)) = false).
    { assert (S1 : Bsign h = false). { destruct h as [s|s| |s m e He]; try discriminate; [cbn in Ph; lra|]. destruct s; [|reflexivity]. exfalso.
        cbn [B2R cond_Zopp] in Ph. apply Rlt_not_le in Ph. apply Ph. apply F2R_le_0. cbn. lia. }
      assert (S2 : Bsign (nofnat (V:=f64) k) = false) by (apply f64_ofZ_sign; lia). rewrite S1. change (xorb false (Bsign (nofnat (V:=f64) k)) = false). now rewrite S2. }
    assert (J : nmul h (nofnat k) = (B754_infinity false : f64)) by (refine (eq_trans I _); exact (f_equal (fun b => (B754_infinity b : f64)) Sg)).
    rewrite J. split; [|lra]. intros H. exfalso. revert H. destruct (nofnat (V:=f64) n) as [s|s| |s m e He] eqn:Eq; try discriminate Fn; cbn; discriminate.
Qed.

(** exact products decide as the real numbers do; in general only occurrences a rounding error below the product differ *)
Lemma hub_test_spec (h : f64) k n : is_finite h = true -> bpow radix2 (-1022) <= B2R h -> (1 <= k)%nat ->
  (Z.of_nat k <= 2 ^ 53)%Z -> (Z.of_nat n <= 2 ^ 53)%Z ->
  (B2R h * INR k <= INR n -> hub_test h k n = true) /\
  (hub_test h k n = true -> B2R h * INR k * (1 - bpow radix2 (-53)) <= INR n) /\
  ((exists q : f64, is_finite q = true /\ B2R q = B2R h * INR k) -> (hub_test h k n = true <-> B2R h * INR k <= INR n)).
Proof.
  intros Fh Lh Hk Bk Bn. pose proof (bpow_gt_0 radix2 (-1022)) as P0. assert (Ph : 0 < B2R h) by lra.
  pose proof (hub_test_rnd h k n Fh Ph Hk Bk Bn) as T.
  assert (K1 : 1 <= INR k) by (change 1 with (INR 1); now apply le_INR).
  assert (A : B2R h * INR k <= INR n -> hub_test h k n = true).
  { intros H. apply T. rewrite <- (rnd_INR n Bn). now apply rnd_le. }
  split; [exact A|]. split.
  - intros H. apply T in H. destruct (rnd_norm (B2R h * INR k)) as (e & He & E).
    { rewrite Rabs_pos_eq by nra. nra. }
    rewrite E in H. apply Rle_trans with (2 := H). apply Rabs_le_inv in He. apply Rmult_le_compat_l; [apply Rmult_le_pos; [left; exact Ph|lra]|]. unfold Rminus. apply Rplus_le_compat_l. exact (proj1 He).
  - intros (q & Fq & Eq). split; [|exact A]. intros H. apply T in H. rewrite <- Eq in *.
    rewrite rnd_gen in H; [exact H|]. apply generic_format_B2R.
Qed.

(** ** C183: which objects are hubs *)
Theorem C183_hubs :
  forall argpart, argpart_ok argpart ->
  forall rdist vsum vpow metric k (hub_size : f64) bs n_jobs rps has_self X Y f,
    (1 <= bs)%Z -> (1 <= k)%nat -> in_wf X rps -> (0 < in_rows X)%nat ->
    is_finite hub_size = true -> bpow radix2 (-1022) <= B2R hub_size ->
    (Z.of_nat k <= 2 ^ 53)%Z -> (Z.of_nat (in_rows X) <= 2 ^ 53)%Z ->
    fit_transform rdist vsum vpow argpart metric k hub_size bs n_jobs rps has_self X Y (Ok f) ->
    forall x, (x < in_train metric X Y)%nat ->
      let occ := INR (nth x (f_occ f) 0%nat) in
      (* at least hub_size * k occurrences, also exactly as many, make a hub *)
      (B2R hub_size * INR k <= occ -> In x (f_hubs f)) /\
      (* a hub has that many, up to one rounding error *)
      (In x (f_hubs f) -> B2R hub_size * INR k * (1 - bpow radix2 (-53)) <= occ) /\
      (* no error where the product is a floating point number *)
      ((exists q : f64, is_finite q = true /\ B2R q = B2R hub_size * INR k) ->
       (In x (f_hubs f) <-> B2R hub_size * INR k <= occ)) /\
      (* the number d that the user meant, which hub_size is the rounding of: objects that do not have just
         about d * k occurrences are where they belong *)
      (forall d, 0 < d -> Rabs (B2R hub_size - d) <= bpow radix2 (-53) * d ->
         (d * INR k * (1 + bpow radix2 (-53)) <= occ -> In x (f_hubs f)) /\
         (occ < d * INR k * (1 - bpow radix2 (-52)) -> ~ In x (f_hubs f))).
Proof.
  intros argpart AP rdist vsum vpow metric k h bs nj rps hself X Y f Hb Hk Hw Hr Fh Lh Bk Bn H x Hx occ.
  destruct (C43_measures argpart AP rdist vsum vpow metric k h bs nj rps hself X Y f Hb Hk Hw Hr H) as (L1 & _ & O & _ & _ & Hh & _).
  assert (Bo : (Z.of_nat (nth x (f_occ f) 0%nat) <= 2 ^ 53)%Z).
  { rewrite (O x Hx). assert (length (filter (fun r => existsb (Nat.eqb x) r) (f_nn f)) <= length (f_nn f))%nat; [|lia].
    clear. induction (f_nn f) as [|r l IH]; cbn; [lia|]. destruct (existsb _ r); cbn; lia. }
  destruct (hub_test_spec h k (nth x (f_occ f) 0%nat) Fh Lh Hk Bk Bo) as (T1 & T2 & T3). fold occ in T1, T2, T3.
  assert (I : In x (f_hubs f) <-> hub_test h k (nth x (f_occ f) 0%nat) = true) by (rewrite Hh; unfold hub_test; tauto).
  split; [intros A; apply I; auto|]. split; [intros A; apply T2, I, A|]. split; [intros Q; rewrite I; now apply T3|].
  intros d Pd Hd. assert (U : 0 < bpow radix2 (-53) <= / 1000) by exact u53_pos. pose proof (lt_0_INR k ltac:(lia)) as Pk. apply Rabs_le_inv in Hd.
  assert (V : bpow radix2 (-52) = 2 * bpow radix2 (-53)) by (change 2 with (bpow radix2 1); rewrite <- bpow_plus; reflexivity).
  rewrite V. clear V Lh T3. set (u := bpow radix2 (-53)) in *. clearbody u.
  split.
  - intros A. apply I, T1. apply Rle_trans with (2 := A). replace (d * INR k * (1 + u)) with ((d + u * d) * INR k) by ring.
    apply Rmult_le_compat_r; lra.
  - intros A B. apply I, T2 in B. apply Rlt_not_le in A. apply A. apply Rle_trans with (2 := B).
    assert (M : d * INR k * (1 - u) <= B2R h * INR k).
    { replace (d * INR k * (1 - u)) with ((d - u * d) * INR k) by ring. apply Rmult_le_compat_r; lra. }
    apply Rle_trans with (d * INR k * (1 - u) * (1 - u)).
    + assert (0 < d * INR k) by nra. nra.
    + apply Rmult_le_compat_r; lra.
Qed.

(** ** DEFECT: hub_size = 1.1 and k = 50.  The product is 55.00000000000001, so an object with 55 = 1.1 * 50
    occurrences is no hub, although with hub_size = 1.5 and k = 50 one with 75 = 1.5 * 50 is. *)
Definition h11 : f64 := ndiv (nofZ 11) (nofZ 10).
Theorem C183_decimal_ties_missed :
  B2R h11 = rnd (11 / 10) /\
  forall Nk x, (x < length Nk)%nat ->
    (nth x Nk 0 = 55 -> ~ In x (hubs 50 Nk h11))%nat /\ (nth x Nk 0 = 56 -> In x (hubs 50 Nk h11))%nat /\
    (nth x Nk 0 = 75 -> In x (hubs 50 Nk (ndiv (nofZ 3) (nofZ 2) : f64)))%nat.
Proof.
  assert (T : hub_test h11 50 55 = false /\ hub_test h11 50 56 = true /\ hub_test (ndiv (nofZ 3) (nofZ 2)) 50 75 = true)
    by (vm_compute; auto).
  split; [|intros Nk x Hx; unfold hubs; rewrite !filter_In, !in_seq; unfold hub_test in T; destruct T as (T1 & T2 & T3);
    split; [intros -> (_ & T); congruence|split; intros ->; (split; [lia|]); [exact T2|exact T3]]].
  unfold h11. destruct (f64_ofZ_exact 11) as (E1 & F1); [vm_compute; discriminate|].
  destruct (f64_ofZ_exact 10) as (E2 & F2); [vm_compute; discriminate|].
  change (nofZ 11) with (f64_ofZ 11). change (nofZ 10) with (f64_ofZ 10).
  destruct (div_cases (f64_ofZ 11) (f64_ofZ 10) F1) as (_ & [(_ & F & R)|(B & _)]); [rewrite E2; lra|now rewrite R, E1, E2|].
  exfalso. rewrite E1, E2 in B. apply Rle_not_lt in B. apply B.
  assert (X : 0 <= rnd (11 / 10) <= 2) by (split; [rewrite <- rnd_0; apply rnd_le; lra|rewrite <- (rnd_Z 2) by (vm_compute; reflexivity); apply rnd_le; lra]).
  rewrite Rabs_pos_eq by lra. pose proof bpow1024_big. lra.
Qed.

(** ** A case: four objects, k = 1 and hub_size = 2 (the case of C43) *)
Example C183_case : is_finite (nofZ 2 : f64) = true /\ bpow radix2 (-1022) <= B2R (nofZ 2 : f64) /\
  (exists q : f64, is_finite q = true /\ B2R q = B2R (nofZ 2 : f64) * INR 1) /\
  exists f, fit_transform (fun _ _ _ => n0) fsum (fun x _ => x) ref_argpart "precomputed" 1 (nofZ 2) 64 1 None true
    (InDense ex_D) None (Ok f) /\ f_occ f = [1; 2; 1; 0]%nat /\ f_hubs f = [1]%nat.
Proof.
  destruct (f64_ofZ_exact 2) as (E & F); [vm_compute; discriminate|]. change (nofZ 2 : f64) with (f64_ofZ 2).
  split; [exact F|]. split.
  { rewrite E. apply Rle_trans with (bpow radix2 0); [apply bpow_le; lia|cbn; lra]. }
  split; [exists (f64_ofZ 2); split; [exact F|cbn [INR]; lra]|].
  destruct ex_C43 as (f & H & _ & Ho & _ & Hh). exists f. auto.
Qed.

Print Assumptions C183_hubs.
Print Assumptions C183_decimal_ties_missed.
