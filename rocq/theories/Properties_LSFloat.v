(** Properties C140 and C141: local scaling of distances in float64
    (local_scaling.py:174-311).

    np.exp is any function that meets [exp_ok]; C141 holds for any function. *)
From Coq Require Import String.
From Coq Require Import ZArith Reals Lra List Arith Lia Bool Permutation.
From Flocq Require Import Core BinarySingleNaN.
From Verif Require Import Py Num NumT Arr Sort Conc S_Neighbors S_LS M_IO M_Hubness M_SNN M_LS.
From Verif Require Import P_Neighbors P_Hubness P_MPEmpiric P_SNN P_LS P_LS2 P_LS3 P_F64.
From Verif Require Import S_LSFloat P_LSFloat Properties_LS.
Import ListNotations.
Local Open Scope nat_scope.

(** the outcome of a call on distances: the matrix and the radii it was made of *)
Lemma ls64_outcome vexp part (D : arr2 f64) n k test cpu n_jobs res :
  part_ok part -> nrow D = n -> ncol D = n ->
  (forall i j, i < n -> j < n -> i <> j -> dist64 (at2 D i j)) ->
  0 < k < length (training n test) -> (1 <= workers cpu n_jobs)%Z ->
  local_scaling vexp part D (Z.of_nat k) "distance" test cpu n_jobs res ->
  exists L rs, res = Ok L /\ nrow L = n /\ ncol L = n /\
    (forall i, i < n -> kth_smallest (others D (training n test) i) k (nth i rs nnan)) /\
    (forall i, i < n -> exists j, j < n /\ j <> i /\ nth i rs nnan = at2 D i j) /\
    (forall i, i < n -> at2 L i i = n0) /\
    (forall i j, i < n -> j < n -> i <> j ->
       same (at2 L i j) (ls_val vexp "distance" (at2 D (Nat.min i j) (Nat.max i j))
                           (nth (Nat.min i j) rs nnan) (nth (Nat.max i j) rs nnan)) = true).
Proof.
  intros PO Hr Hc Hf Hk Hw H. subst n.
  destruct (ls_radii_dist f64_cmp part D k test PO (eq_sym Hc)
     (fun i j Hi Hj Hne => proj1 (Hf i j Hi Hj Hne)) Hk) as (rs & E & K).
  apply ls_outcome in H; [|exact Hw]. rewrite E in H. destruct H as (L & -> & R1 & R2 & A).
  exists L, rs. split; [reflexivity|]. split; [assumption|]. split; [assumption|]. split; [exact K|]. split; [|split].
  - intros i Hi. destruct (K i Hi) as (Kin & _). apply others_in in Kin. destruct Kin as (b & Hb & Hbne & Eb). now exists b.
  - intros i Hi. now rewrite (proj1 (A i i Hi Hi) eq_refl).
  - intros i j Hi Hj Hne. apply maybe0_same. exact (proj2 (A i j Hi Hj) Hne).
Qed.

Lemma same_range (w v : f64) : same w v = true ->
  (nisnan v = true -> nisnan w = true) /\
  (nle n0 v = true /\ nle v n1 = true -> nle n0 w = true /\ nle w n1 = true).
Proof.
  unfold same. intros H. apply orb_true_iff in H. destruct H as [H|H].
  - rewrite (cl_eq _ _ _ f64_cmp) in H. rewrite !(cl_nan _ _ _ f64_cmp), !(cl_le _ _ _ f64_cmp), (cl_0 _ _ _ f64_cmp), (cl_1 _ _ _ f64_cmp).
    destruct (f2x w), (f2x v); simpl in H; try discriminate; auto.
    destruct (Req_EM_T r r0); [subst; auto|discriminate].
  - apply andb_true_iff in H. destruct H as (Hw & Hv). split; [auto|]. intros (H & _). exfalso.
    destruct v; try discriminate.
Qed.

(** one value *)
Lemma ls_val_range vexp (d ri rj : f64) : exp_ok vexp -> dist64 d -> dist64 ri -> dist64 rj ->
  nisnan (ls_val vexp "distance" d ri rj) = true \/
  (nle n0 (ls_val vexp "distance" d ri rj) = true /\ nle (ls_val vexp "distance" d ri rj) n1 = true).
Proof.
  intros EO Hd Hi Hj. unfold ls_val. change (is_sim "distance") with false. cbv iota.
  destruct (mul_dist d d Hd Hd) as (N1 & S1). destruct (mul_dist ri rj Hi Hj) as (N2 & S2).
  destruct (minus1_mul _ N1 S1) as (N3 & S3 & _).
  remember (nmul (nofZ (-1)) (nmul d d)) as a. remember (nmul ri rj) as b.
  destruct (div_sign a b N3 N2) as [Q|Q].
  - left. pose proof (exp_nan _ EO _ Q) as E. destruct (vexp (ndiv a b)); try discriminate. reflexivity.
  - rewrite S3, S2 in Q. destruct (nisnan (ndiv a b)) eqn:NQ.
    + left. pose proof (exp_nan _ EO _ NQ) as E. destruct (vexp (ndiv a b)); try discriminate. reflexivity.
    + right. destruct (exp_neg _ EO _ (neg_le0 _ NQ Q)) as (E0 & E1). now apply one_minus.
Qed.

(** ** C140: whatever the distances are, a result is NaN or a number in [0, 1] *)
Theorem C140_range :
  forall vexp part (D : arr2 f64) n k test cpu n_jobs res,
    exp_ok vexp -> part_ok part -> nrow D = n -> ncol D = n ->
    (forall i j, i < n -> j < n -> i <> j -> dist64 (at2 D i j)) ->
    0 < k < length (training n test) -> (1 <= workers cpu n_jobs)%Z ->
    local_scaling vexp part D (Z.of_nat k) "distance" test cpu n_jobs res ->
    exists L, res = Ok L /\ forall i j, i < n -> j < n ->
      nisnan (at2 L i j) = true \/ (nle n0 (at2 L i j) = true /\ nle (at2 L i j) n1 = true).
Proof.
  intros vexp part D n k test cpu nj res EO PO Hr Hc Hf Hk Hw H.
  destruct (ls64_outcome _ _ _ _ _ _ _ _ _ PO Hr Hc Hf Hk Hw H) as (L & rs & -> & _ & _ & _ & Rd & Dg & Off).
  exists L. split; [reflexivity|]. intros i j Hi Hj. destruct (Nat.eq_dec i j) as [->|Hne].
  - right. rewrite Dg by assumption. split; reflexivity.
  - assert (RD : forall a, a < n -> dist64 (nth a rs nnan)).
    { intros a Ha. destruct (Rd a Ha) as (b & Hb & Hba & ->). apply Hf; auto. }
    destruct (same_range _ _ (Off i j Hi Hj Hne)) as (S1 & S2).
    destruct (ls_val_range vexp (at2 D (Nat.min i j) (Nat.max i j)) (nth (Nat.min i j) rs nnan) (nth (Nat.max i j) rs nnan) EO)
      as [V|V]; auto; try apply RD; try apply Hf; lia.
Qed.

(** no NaN arises if all distances between different objects are between 2^-500 and 2^500 *)
Lemma ls_val_safe vexp (d ri rj : f64) : exp_ok vexp -> dist64 d -> dist64 ri -> dist64 rj ->
  within (-500) 500 d -> within (-500) 500 ri -> within (-500) 500 rj ->
  nle n0 (ls_val vexp "distance" d ri rj) = true /\ nle (ls_val vexp "distance" d ri rj) n1 = true.
Proof.
  intros EO Hd Hi Hj Wd Wi Wj. unfold ls_val. change (is_sim "distance") with false. cbv iota.
  assert (He : (0 <= 500 <= 500)%Z) by lia.
  destruct (mul_within 500 d d He Hd Hd Wd Wd) as (D1 & W1 & _).
  destruct (mul_within 500 ri rj He Hi Hj Wi Wj) as (D2 & W2 & _).
  destruct D1 as (F1 & S1), D2 as (F2 & S2).
  destruct (minus1_mul (nmul d d) (finite_nan _ F1) S1) as (N3 & S3 & F3 & _).
  change (nisfin (nmul d d)) with (is_finite (nmul d d)) in F1. rewrite F1 in F3.
  apply within_pos in W2.
  destruct (div_cases _ (nmul ri rj) F3 (Rgt_not_eq _ _ W2)) as (SQ & C). rewrite S3, S2 in SQ, C.
  assert (NQ : nisnan (ndiv (nmul (nofZ (-1)) (nmul d d)) (nmul ri rj)) = false).
  { destruct C as [(_ & F & _)|(_ & E)]; [now apply finite_nan|now rewrite E]. }
  destruct (exp_neg _ EO _ (neg_le0 _ NQ SQ)) as (E0 & E1). now apply one_minus.
Qed.

Theorem C140_no_nan :
  forall vexp part (D : arr2 f64) n k test cpu n_jobs res,
    exp_ok vexp -> part_ok part -> nrow D = n -> ncol D = n ->
    (forall i j, i < n -> j < n -> i <> j -> dist64 (at2 D i j) /\ within (-500) 500 (at2 D i j)) ->
    0 < k < length (training n test) -> (1 <= workers cpu n_jobs)%Z ->
    local_scaling vexp part D (Z.of_nat k) "distance" test cpu n_jobs res ->
    exists L, res = Ok L /\ forall i j, i < n -> j < n ->
      nle n0 (at2 L i j) = true /\ nle (at2 L i j) n1 = true.
Proof.
  intros vexp part D n k test cpu nj res EO PO Hr Hc Hf Hk Hw H.
  destruct (ls64_outcome _ _ _ _ _ _ _ _ _ PO Hr Hc (fun i j a b c => proj1 (Hf i j a b c)) Hk Hw H)
    as (L & rs & -> & _ & _ & _ & Rd & Dg & Off).
  exists L. split; [reflexivity|]. intros i j Hi Hj. destruct (Nat.eq_dec i j) as [->|Hne].
  - rewrite Dg by assumption. split; reflexivity.
  - assert (RD : forall a, a < n -> dist64 (nth a rs nnan) /\ within (-500) 500 (nth a rs nnan)).
    { intros a Ha. destruct (Rd a Ha) as (b & Hb & Hba & ->). apply Hf; auto. }
    destruct (same_range _ _ (Off i j Hi Hj Hne)) as (_ & S2). apply S2.
    apply ls_val_safe; auto; try (apply RD; lia); apply Hf; lia.
Qed.

(** DEFECT: outside that range local scaling depends on the unit of the
    distances.  If all distances between different objects are below 2^-538
    (their squares are rounded to 0), or all are at least 2^512 (their squares
    overflow), every value between different objects is NaN. *)
Theorem C140_nan :
  forall vexp part (D : arr2 f64) n k test cpu n_jobs res,
    exp_ok vexp -> part_ok part -> nrow D = n -> ncol D = n ->
    (forall i j, i < n -> j < n -> i <> j -> dist64 (at2 D i j)) ->
    (forall i j, i < n -> j < n -> i <> j -> (B2R (at2 D i j) < bpow radix2 (-538))%R) \/
    (forall i j, i < n -> j < n -> i <> j -> (bpow radix2 512 <= B2R (at2 D i j))%R) ->
    0 < k < length (training n test) -> (1 <= workers cpu n_jobs)%Z ->
    local_scaling vexp part D (Z.of_nat k) "distance" test cpu n_jobs res ->
    exists L, res = Ok L /\ forall i j, i < n -> j < n -> i <> j -> nisnan (at2 L i j) = true.
Proof.
  intros vexp part D n k test cpu nj res EO PO Hr Hc Hf Hx Hk Hw H.
  destruct (ls64_outcome _ _ _ _ _ _ _ _ _ PO Hr Hc Hf Hk Hw H) as (L & rs & -> & _ & _ & _ & Rd & Dg & Off).
  exists L. split; [reflexivity|]. intros i j Hi Hj Hne.
  apply (proj1 (same_range _ _ (Off i j Hi Hj Hne))).
  assert (Hm : Nat.min i j < n) by lia. assert (HM : Nat.max i j < n) by lia. assert (Hd : Nat.min i j <> Nat.max i j) by lia.
  destruct (Rd _ Hm) as (b & Hb & Hbne & ->). destruct (Rd _ HM) as (c & Hc' & Hcne & ->).
  assert (NN : forall x : f64, nisnan x = true -> nisnan (nsub n1 x) = true) by (intros []; try discriminate; reflexivity).
  unfold ls_val. change (is_sim "distance") with false. cbv iota. apply NN, (exp_nan _ EO).
  destruct Hx as [Hx|Hx].
  - rewrite (mul_tiny (at2 D (Nat.min i j) (Nat.max i j)) (at2 D (Nat.min i j) (Nat.max i j))) by auto.
    rewrite (mul_tiny (at2 D (Nat.min i j) b) (at2 D (Nat.max i j) c)) by auto. reflexivity.
  - rewrite (mul_huge (at2 D (Nat.min i j) (Nat.max i j)) (at2 D (Nat.min i j) (Nat.max i j))) by auto.
    rewrite (mul_huge (at2 D (Nat.min i j) b) (at2 D (Nat.max i j) c)) by auto. reflexivity.
Qed.

(** ** C141: multiplying all distances by a power of two does not change a
    single value, as long as the distances stay between 2^-500 and 2^500 *)
Lemma ls_val_pow2 vexp (d ri rj d' ri' rj' : f64) (e : Z) :
  dist64 d -> dist64 ri -> dist64 rj -> within (-500) 500 d -> within (-500) 500 ri -> within (-500) 500 rj ->
  dist64 d' -> dist64 ri' -> dist64 rj' -> within (-500) 500 d' -> within (-500) 500 ri' -> within (-500) 500 rj' ->
  B2R d' = (B2R d * bpow radix2 e)%R -> B2R ri' = (B2R ri * bpow radix2 e)%R -> B2R rj' = (B2R rj * bpow radix2 e)%R ->
  ls_val vexp "distance" d' ri' rj' = ls_val vexp "distance" d ri rj.
Proof.
  intros Hd Hi Hj Wd Wi Wj Hd' Hi' Hj' Wd' Wi' Wj' Ed Ei Ej.
  assert (He : (0 <= 500 <= 500)%Z) by lia.
  assert (P : forall x y x' y' : f64, dist64 x -> dist64 y -> dist64 x' -> dist64 y' ->
     within (-500) 500 x -> within (-500) 500 y -> within (-500) 500 x' -> within (-500) 500 y' ->
     B2R x' = (B2R x * bpow radix2 e)%R -> B2R y' = (B2R y * bpow radix2 e)%R ->
     B2R (nmul x' y') = (B2R (nmul x y) * bpow radix2 (e + e))%R).
  { clear - He. intros x y x' y' X Y X' Y' WX WY WX' WY' EX EY.
    destruct (mul_within 500 x y He X Y WX WY) as (_ & _ & ->).
    destruct (mul_within 500 x' y' He X' Y' WX' WY') as (_ & _ & ->).
    assert (LB : forall a b : f64, within (-500) 500 a -> within (-500) 500 b -> (bpow radix2 (-1022) <= Rabs (B2R a * B2R b))%R).
    { intros a b (A & _) (B & _). pose proof (bpow_gt_0 radix2 (-500)) as Z0.
      rewrite Rabs_pos_eq by (apply Rmult_le_pos; lra).
      apply Rle_trans with (bpow radix2 (-500) * bpow radix2 (-500))%R.
      - rewrite <- bpow_plus. apply bpow_le. lia.
      - apply Rmult_le_compat; lra. }
    assert (EE : (B2R x' * B2R y' = B2R x * B2R y * bpow radix2 (e + e))%R).
    { rewrite EX, EY, bpow_plus. ring. }
    rewrite EE. apply rnd_bpow; [now apply LB|]. rewrite <- EE. now apply LB. }
  pose proof (P d d d' d' Hd Hd Hd' Hd' Wd Wd Wd' Wd' Ed Ed) as P1.
  pose proof (P ri rj ri' rj' Hi Hj Hi' Hj' Wi Wj Wi' Wj' Ei Ej) as P2. clear P.
  destruct (mul_within 500 d d He Hd Hd Wd Wd) as ((F1 & S1) & _ & _).
  destruct (mul_within 500 ri rj He Hi Hj Wi Wj) as ((F2 & S2) & W2 & _).
  destruct (mul_within 500 d' d' He Hd' Hd' Wd' Wd') as ((F1' & S1') & _ & _).
  destruct (mul_within 500 ri' rj' He Hi' Hj' Wi' Wj') as ((F2' & S2') & W2' & _).
  destruct (minus1_mul (nmul d d) (finite_nan _ F1) S1) as (N3 & S3 & F3 & R3).
  destruct (minus1_mul (nmul d' d') (finite_nan _ F1') S1') as (N3' & S3' & F3' & R3').
  apply within_pos in W2. apply within_pos in W2'.
  unfold ls_val. change (is_sim "distance") with false. cbv iota.
  replace (ndiv (nmul (nofZ (-1)) (nmul d' d')) (nmul ri' rj')) with (ndiv (nmul (nofZ (-1)) (nmul d d)) (nmul ri rj)); [reflexivity|].
  apply div_same; try congruence; try lra.
  - now rewrite F3.
  - now rewrite F3'.
  - rewrite R3, R3', P1, P2. field. split; apply Rgt_not_eq; [apply bpow_gt_0|exact W2].
Qed.

Theorem C141_power_of_two_units :
  forall vexp part part' (D D' : arr2 f64) n (e : Z) k test cpu n_jobs n_jobs' res res',
    part_ok part -> part_ok part' -> nrow D = n -> ncol D = n -> nrow D' = n -> ncol D' = n ->
    (forall i j, i < n -> j < n -> i <> j -> dist64 (at2 D i j) /\ within (-500) 500 (at2 D i j)) ->
    (forall i j, i < n -> j < n -> i <> j -> dist64 (at2 D' i j) /\ within (-500) 500 (at2 D' i j)) ->
    (forall i j, i < n -> j < n -> i <> j -> B2R (at2 D' i j) = (B2R (at2 D i j) * bpow radix2 e)%R) ->
    0 < k < length (training n test) -> (1 <= workers cpu n_jobs)%Z -> (1 <= workers cpu n_jobs')%Z ->
    local_scaling vexp part D (Z.of_nat k) "distance" test cpu n_jobs res ->
    local_scaling vexp part' D' (Z.of_nat k) "distance" test cpu n_jobs' res' ->
    exists L L', res = Ok L /\ res' = Ok L' /\ forall i j, i < n -> j < n -> same (at2 L' i j) (at2 L i j) = true.
Proof.
  intros vexp part part' D D' n e k test cpu nj nj' res res' PO PO' Hr Hc Hr' Hc' Hf Hf' He Hk Hw Hw' H H'.
  destruct (ls64_outcome _ _ _ _ _ _ _ _ _ PO Hr Hc (fun i j a b c => proj1 (Hf i j a b c)) Hk Hw H)
    as (L & rs & -> & _ & _ & K & Rd & Dg & Off).
  destruct (ls64_outcome _ _ _ _ _ _ _ _ _ PO' Hr' Hc' (fun i j a b c => proj1 (Hf' i j a b c)) Hk Hw' H')
    as (L' & rs' & -> & _ & _ & K' & Rd' & Dg' & Off').
  exists L, L'. split; [reflexivity|]. split; [reflexivity|]. intros i j Hi Hj. destruct (Nat.eq_dec i j) as [->|Hne].
  - rewrite Dg, Dg' by assumption. reflexivity.
  - assert (Pe := bpow_gt_0 radix2 e).
    assert (RD : forall a, a < n -> dist64 (nth a rs nnan) /\ within (-500) 500 (nth a rs nnan)).
    { intros a Ha. destruct (Rd a Ha) as (b & Hb & Hba & ->). apply Hf; auto. }
    assert (RD' : forall a, a < n -> dist64 (nth a rs' nnan) /\ within (-500) 500 (nth a rs' nnan)).
    { intros a Ha. destruct (Rd' a Ha) as (b & Hb & Hba & ->). apply Hf'; auto. }
    assert (RE : forall a, a < n -> B2R (nth a rs' nnan) = (B2R (nth a rs nnan) * bpow radix2 e)%R).
    { intros a Ha. pose proof (kth_smallest_f2x _ _ _ (K' a Ha)) as A'. pose proof (kth_smallest_f2x _ _ _ (K a Ha)) as A.
      apply (kth_smallest_scale (bpow radix2 e) _ _ _ Pe) in A.
      replace (map (xmul (XFin (bpow radix2 e))) (map f2x (S_LS.others D (training n test) a)))
        with (map f2x (S_LS.others D' (training n test) a)) in A.
      - pose proof (kth_smallest_unique _ _ _ _ A' A) as U. destruct (RD a Ha) as ((F & _) & _), (RD' a Ha) as ((F' & _) & _).
        rewrite (f2x_fin _ F), (f2x_fin _ F') in U. apply (f_equal (fun z => match z with XFin r => r | _ => 0%R end)) in U.
        rewrite Rmult_comm. exact U.
      - unfold S_LS.others. rewrite !map_map. apply map_ext_in. intros b Hb. apply filter_In in Hb. destruct Hb as (Hb & Hba).
        apply training_in in Hb. apply negb_true_iff, Nat.eqb_neq in Hba. assert (Hab : a <> b) by auto.
        rewrite (f2x_fin _ (proj1 (proj1 (Hf a b Ha Hb Hab)))), (f2x_fin _ (proj1 (proj1 (Hf' a b Ha Hb Hab)))).
        simpl. f_equal. rewrite He by assumption. ring. }
    assert (Hm : Nat.min i j < n) by lia. assert (HM : Nat.max i j < n) by lia. assert (Hd : Nat.min i j <> Nat.max i j) by lia.
    eapply same_trans; [apply (Off' i j Hi Hj Hne)|]. rewrite same_sym.
    rewrite (ls_val_pow2 vexp (at2 D (Nat.min i j) (Nat.max i j)) (nth (Nat.min i j) rs nnan) (nth (Nat.max i j) rs nnan) _ _ _ e);
      try (apply RD; assumption); try (apply RD'; assumption); try (apply Hf; assumption); try (apply Hf'; assumption); auto.
Qed.

(** ** cases: three points at 0, 1, 3 on a line, in a unit of 2^s *)
Definition f64_of (m s : Z) : f64 := binary_normalize 53 1024 prec53 emax1024 mode_NE m s false.
Definition line3 (s : Z) : arr2 f64 :=
  Arr2 3 3 (fun i j => f64_of (Z.abs (nth i [0; 1; 3]%Z 0%Z - nth j [0; 1; 3]%Z 0%Z)) s).

Lemma f64_of_val m s : (1 <= m <= 3)%Z -> (-1000 <= s <= 1000)%Z ->
  dist64 (f64_of m s) /\ B2R (f64_of m s) = (IZR m * bpow radix2 s)%R.
Proof.
  intros Hm Hs. unfold f64_of. pose proof (binary_normalize_correct 53 1024 prec53 emax1024 mode_NE m s false) as H.
  cbv zeta in H. unfold F2R in H. cbn [Fnum Fexp] in H. fold (rnd (IZR m * bpow radix2 s)) in H.
  assert (G : rnd (IZR m * bpow radix2 s) = (IZR m * bpow radix2 s)%R).
  { apply rnd_gen. apply (generic_format_FLT radix2 (-1074) 53). exists (Float radix2 m s); [reflexivity| |]; simpl; lia. }
  assert (P : (0 < IZR m * bpow radix2 s)%R) by (apply Rmult_lt_0_compat; [apply IZR_lt; lia|apply bpow_gt_0]).
  rewrite G in H. rewrite Rlt_bool_true in H.
  - destruct H as (H1 & H2 & H3). split; [split; [exact H2|]|exact H1]. rewrite H3.
    destruct (Rcompare_spec (IZR m * bpow radix2 s) 0); try reflexivity. lra.
  - rewrite Rabs_pos_eq by lra. apply Rle_lt_trans with (bpow radix2 2 * bpow radix2 s)%R.
    + apply Rmult_le_compat_r; [apply bpow_ge_0|]. change (bpow radix2 2) with 4%R. apply IZR_le. lia.
    + rewrite <- bpow_plus. apply bpow_lt. lia.
Qed.

Lemma line3_at s i j : (-1000 <= s <= 1000)%Z -> i < 3 -> j < 3 -> i <> j ->
  dist64 (at2 (line3 s) i j) /\ (bpow radix2 s <= B2R (at2 (line3 s) i j) <= bpow radix2 (s + 2))%R /\
  B2R (at2 (line3 s) i j) = (B2R (at2 (line3 0) i j) * bpow radix2 s)%R.
Proof.
  intros Hs Hi Hj Hne. cbn [line3 at2].
  assert (M : (1 <= Z.abs (nth i [0; 1; 3]%Z 0%Z - nth j [0; 1; 3]%Z 0%Z) <= 3)%Z).
  { destruct i as [|[|[|i]]], j as [|[|[|j]]]; try lia; simpl; lia. }
  set (m := Z.abs (nth i [0; 1; 3]%Z 0%Z - nth j [0; 1; 3]%Z 0%Z)) in *.
  destruct (f64_of_val m s M Hs) as (A & B). destruct (f64_of_val m 0 M ltac:(lia)) as (A0 & B0).
  split; [exact A|]. rewrite B, B0. assert (P := bpow_gt_0 radix2 s).
  assert (R1 : (1 <= IZR m <= 3)%R) by (split; apply IZR_le; lia). split.
  - rewrite bpow_plus. change (bpow radix2 2) with 4%R. nra.
  - change (bpow radix2 0) with 1%R. ring.
Qed.

(** any function of this kind is a possible np.exp *)
Definition toy_exp (x : f64) : f64 :=
  if nisnan x then nnan else if nle x n0 then if neq x n0 then n1 else f64_of 1 (-1) else ninf.
Example exp_ok_inhabited : exp_ok toy_exp.
Proof.
  constructor.
  - intros x H. unfold toy_exp. now rewrite H.
  - intros x H. unfold toy_exp. assert (N : nisnan x = false) by (destruct x; try reflexivity; discriminate).
    rewrite N, H. destruct (neq x n0); split; reflexivity.
Qed.

Example C140_case : forall s, (-500 <= s <= 498)%Z ->
  (forall i j, i < 3 -> j < 3 -> i <> j -> dist64 (at2 (line3 s) i j) /\ within (-500) 500 (at2 (line3 s) i j)) /\
  0 < 1 < length (training 3 None) /\ nrow (line3 s) = 3 /\ ncol (line3 s) = 3.
Proof.
  intros s Hs. split; [|simpl; auto].
  intros i j Hi Hj Hne. destruct (line3_at s i j ltac:(lia) Hi Hj Hne) as (A & (B & C) & _). split; [exact A|]. split.
  - apply Rle_trans with (2 := B). apply bpow_le. lia.
  - apply Rle_trans with (1 := C). apply bpow_le. lia.
Qed.

(** the same three points measured in units of 1, of 2^-600 and of 2^600: only the first gives numbers *)
Theorem C140_witness :
  forall vexp part cpu n_jobs s res, exp_ok vexp -> part_ok part -> (1 <= workers cpu n_jobs)%Z ->
    local_scaling vexp part (line3 s) 1 "distance" None cpu n_jobs res ->
    (s = 0%Z -> exists L, res = Ok L /\ forall i j, i < 3 -> j < 3 -> nle n0 (at2 L i j) = true /\ nle (at2 L i j) n1 = true) /\
    (s = (-600)%Z \/ s = 600%Z -> exists L, res = Ok L /\ forall i j, i < 3 -> j < 3 -> i <> j -> nisnan (at2 L i j) = true).
Proof.
  intros vexp part cpu nj s res EO PO Hw H. split.
  - intros ->. destruct (C140_case 0 ltac:(lia)) as (A & B & C & D).
    exact (C140_no_nan vexp part (line3 0) 3 1 None cpu nj res EO PO C D A B Hw H).
  - intros Hs. assert (Hs' : (-1000 <= s <= 1000)%Z) by lia.
    apply (C140_nan vexp part (line3 s) 3 1 None cpu nj res EO PO eq_refl eq_refl); auto.
    + intros i j Hi Hj Hne. apply (line3_at s i j Hs' Hi Hj Hne).
    + destruct Hs as [-> | ->]; [left|right]; intros i j Hi Hj Hne.
      * apply Rle_lt_trans with (bpow radix2 (-600 + 2)); [apply (line3_at (-600) i j Hs' Hi Hj Hne)|apply bpow_lt; lia].
      * apply Rle_trans with (bpow radix2 600); [apply bpow_le; lia|apply (line3_at 600 i j Hs' Hi Hj Hne)].
    + simpl. lia.
Qed.

(** units 1 and 2^-400 give the same values *)
Example C141_case : forall i j, i < 3 -> j < 3 -> i <> j ->
  (dist64 (at2 (line3 0) i j) /\ within (-500) 500 (at2 (line3 0) i j)) /\
  (dist64 (at2 (line3 (-400)) i j) /\ within (-500) 500 (at2 (line3 (-400)) i j)) /\
  B2R (at2 (line3 (-400)) i j) = (B2R (at2 (line3 0) i j) * bpow radix2 (-400))%R.
Proof.
  intros i j Hi Hj Hne. split; [now apply C140_case|]. split; [now apply C140_case|].
  now apply line3_at.
Qed.

Print Assumptions C140_range.
Print Assumptions C140_no_nan.
Print Assumptions C140_nan.
Print Assumptions C140_witness.
Print Assumptions C141_power_of_two_units.

Lemma firstn_sub {A} (m : nat) (l : list A) x : In x (firstn m l) -> In x l.
Proof. intros H. rewrite <- (firstn_skipn m l). apply in_or_app. now left. Qed.

(** ** C144: NICDM in float64 is never negative.  Distances may be infinite or
    NaN; k is arbitrary; np.exp returns no negative number, and np.sum of
    numbers that are not negative is not negative. *)
Theorem C144_nicdm_float64 :
  forall (vexp vln : f64 -> f64) vsum part (D : arr2 f64) k metric test cpu n_jobs L,
    (forall x, sign_clear (vexp x)) ->
    (forall l, (forall x, In x l -> sign_clear x) -> sign_clear (vsum l)) -> part_ok part ->
    (forall i j, i < nrow D -> j < nrow D -> i <> j -> sign_clear (at2 D i j)) ->
    nicdm vexp vln vsum part D k metric test cpu n_jobs (Ok L) ->
    forall i j, i < nrow D -> j < nrow D -> nisnan (at2 L i j) = true \/ nle n0 (at2 L i j) = true.
Proof.
  intros vexp vln vsum part D k metric test cpu nj L He Hs PO HD H.
  apply nicdm_outcome in H. destruct (nicdm_radii vsum part D k metric test) as [rs|e] eqn:E; [|discriminate].
  apply nicdm_radii_inv in E. destruct E as (_ & _ & _ & Er). destruct H as (L' & EL & _ & _ & A). injection EL as <-.
  assert (Nat0 : forall m, sign_clear (nofnat (V:=f64) m)).
  { intros m. right. unfold nofnat. cbn [nofZ Num_f64].
    pose proof (binary_normalize_correct 53 1024 prec53 emax1024 mode_NE (Z.of_nat m) 0 false) as B. cbv zeta in B.
    assert (P : (0 <= F2R (Float radix2 (Z.of_nat m) 0))%R) by (apply F2R_ge_0; simpl; lia).
    destruct (Rlt_bool _ _) in B.
    - destruct B as (_ & _ & B). unfold f64_ofZ. rewrite B.
      destruct (Rcompare_spec (F2R (Float radix2 (Z.of_nat m) 0)) 0); try reflexivity. lra.
    - apply overflow_inf in B. unfold f64_ofZ. rewrite B. cbn [Bsign]. apply Rlt_bool_false. exact P. }
  assert (RC : forall i, i < nrow D -> sign_clear (nth i rs nnan)).
  { intros i Hi. specialize (Er i Hi). unfold nicdm_radius in Er. apply bind_ok_inv in Er as (q & Eq & Er).
    assert (Er' : nth i rs nnan = vmean vsum (prefix q k)) by (injection Er as Er; symmetry; exact Er). rewrite Er'.
    unfold vmean. apply div_clear; [|apply Nat0]. apply Hs. intros x Hx. apply (firstn_sub (Z.to_nat (if (k <? 0)%Z then Z.of_nat (length q) + k else k)%Z) q) in Hx.
    unfold np_partition in Eq. destruct (kth_legal _ _) eqn:Lg in Eq; [|discriminate].
    assert (Pq : Permutation q (map (at2 (fill_diagonal D ninf) i) (ls_train (nrow D) test))).
    { injection Eq as <-. apply PO. intros z Hz. apply in_map_iff in Hz as (y & <- & Hy).
      apply py_norm_lt. now apply (proj1 (kth_legal_spec _ _) Lg). }
    apply (Permutation_in _ Pq) in Hx. apply in_map_iff in Hx as (j & <- & Hj). rewrite training_eq in Hj. apply training_in in Hj.
    cbn [fill_diagonal at2]. destruct (Nat.eqb_spec i j); [right; reflexivity|]. now apply HD. }
  assert (Q : forall w v : f64, same w v = true -> nisnan v = true \/ nle n0 v = true -> nisnan w = true \/ nle n0 w = true).
  { intros w v H. unfold same in H. apply orb_true_iff in H. destruct H as [H|H].
    - rewrite (cl_eq _ _ _ f64_cmp) in H. rewrite !(cl_nan _ _ _ f64_cmp), !(cl_le _ _ _ f64_cmp), (cl_0 _ _ _ f64_cmp).
      destruct (f2x w), (f2x v); simpl in *; try discriminate; auto. destruct (Req_EM_T r r0); [subst; auto|discriminate].
    - apply andb_true_iff in H as (H & _). auto. }
  intros i j Hi Hj. destruct (A i j Hi Hj) as (A1 & A2). destruct (Nat.eq_dec i j) as [Eij|Eij].
  - apply (Q _ _ (maybe0_same _ _ (A1 Eij))). right. reflexivity.
  - apply (Q _ _ (maybe0_same _ _ (A2 Eij))). apply clear_nonneg. unfold nicdm_cell, nicdm_val.
    apply div_clear; [apply mul_clear; [apply He|apply HD; lia]|apply sqrt_clear, mul_clear; apply RC; lia].
Qed.

(** left to right summation meets the condition on np.sum; three points on a line *)
Example C144_case :
  (forall x, sign_clear (toy_exp x)) /\
  (forall l, (forall x, In x l -> sign_clear x) -> sign_clear (fold_left nadd l (n0 (V:=f64)))) /\
  (forall i j, i < 3 -> j < 3 -> i <> j -> sign_clear (at2 (line3 0) i j)).
Proof.
  split; [|split].
  - intros x. unfold toy_exp. destruct (nisnan x); [left; reflexivity|right].
    destruct (nle x n0); [destruct (neq x n0)|]; reflexivity.
  - assert (G : forall l a, sign_clear a -> (forall x, In x l -> sign_clear x) -> sign_clear (fold_left (nadd (V:=f64)) l a)).
    { induction l as [|x l IH]; intros a Ha Hl; [exact Ha|]. cbn [fold_left]. apply IH; [|intros; apply Hl; now right].
      specialize (Hl x (or_introl eq_refl)). destruct Ha as [Ha|Ha]; [left; destruct a; try discriminate; reflexivity|].
      destruct Hl as [Hx|Hx]; [left; destruct x; try discriminate; now destruct a|].
      destruct (is_finite a && is_finite x) eqn:F.
      - apply andb_true_iff in F as (Fa & Fx). right.
        pose proof (Bplus_correct 53 1024 prec53 emax1024 mode_NE a x Fa Fx) as B.
        assert (P : forall z : f64, Bsign z = false -> (0 <= B2R z)%R).
        { intros [s|s| |s m e K]; simpl; intros E; try lra. subst s. apply F2R_ge_0. simpl. lia. }
        change (nadd a x) with (Bplus mode_NE a x). destruct (Rlt_bool _ _) in B.
        + destruct B as (_ & _ & ->). rewrite Ha, Hx. pose proof (P a Ha). pose proof (P x Hx).
          destruct (Rcompare_spec (B2R a + B2R x) 0); try reflexivity. lra.
        + destruct B as (B & _). apply overflow_inf in B. now rewrite B, Ha.
      - destruct a as [[|]|[|]| |[|] m e K], x as [[|]|[|]| |[|] m' e' K']; try discriminate;
          (left; reflexivity) || (right; reflexivity). }
    intros l Hl. apply G; [right; reflexivity|exact Hl].
  - intros i j Hi Hj Hne. right. apply (line3_at 0 i j ltac:(lia) Hi Hj Hne).
Qed.
Print Assumptions C144_nicdm_float64.
