(** Properties C28, C29, C32 for nicdm (local_scaling.py:402-531). *)
From Coq Require Import String.
From Coq Require Import ZArith Reals Lra List Arith Lia Bool Permutation.
From Verif Require Import Py Num NumT Arr Sort Conc S_Neighbors S_LS M_IO M_Hubness M_SNN M_LS.
From Verif Require Import P_Neighbors P_Hubness P_MPEmpiric P_SNN P_LS P_LS2 P_LS3 P_NICDM.
Import ListNotations.
Local Open Scope nat_scope.

Theorem C29_nicdm_some_outcome :
  forall {V} {N : Num V} vexp vln vsum part (D : arr2 V) k metric test cpu n_jobs,
    exists res, nicdm vexp vln vsum part D k metric test cpu n_jobs res.
Proof.
  intros V N vexp vln vsum part D k metric test cpu nj.
  destruct (Z.le_gt_cases (if (nj =? -1)%Z then Z.of_nat cpu else nj) 1) as [H|H].
  - eexists. now apply ni_one.
  - destruct (nicdm_radii vsum part D k metric test) as [rs|e] eqn:E.
    + eexists. eapply ni_pool; [exact H|exact E|apply pool_run_exists|apply pool_run_exists].
    + exists (Raise e). now apply ni_fail.
Qed.

(** ** C29: any number of workers, any schedule *)
Theorem C29_nicdm_schedule_independent :
  forall (vexp vln : f64 -> f64) vsum part (D : arr2 f64) k metric test cpu n_jobs n_jobs' res res',
    nicdm vexp vln vsum part D k metric test cpu n_jobs res ->
    nicdm vexp vln vsum part D k metric test cpu n_jobs' res' ->
    agree res res'.
Proof.
  intros vexp vln vsum part D k metric test cpu nj nj' res res' H H'.
  apply nicdm_outcome in H. apply nicdm_outcome in H'.
  destruct (nicdm_radii vsum part D k metric test) as [rs|e].
  - destruct H as (L & -> & R & C & A), H' as (L' & -> & R' & C' & A'). simpl.
    split; [congruence|]. split; [congruence|]. intros i j Hi Hj.
    rewrite R in Hi. rewrite C in Hj. destruct (A i j Hi Hj) as (Ae & An), (A' i j Hi Hj) as (Ae' & An').
    destruct (Nat.eq_dec i j) as [E|E].
    + eapply same_trans; [apply maybe0_same; exact (Ae E)|]. rewrite same_sym. apply maybe0_same; exact (Ae' E).
    + eapply same_trans; [apply maybe0_same; exact (An E)|]. rewrite same_sym. apply maybe0_same; exact (An' E).
  - subst. reflexivity.
Qed.

Lemma nicdm_xr part (D : arr2 xr) n k test cpu nj res :
  part_ok part -> nrow D = n -> ncol D = n ->
  (forall i j, i < n -> j < n -> i <> j -> nisfin (at2 D i j) = true) ->
  0 < k < length (training n test) ->
  nicdm xexp xln xsum part D (Z.of_nat k) "distance" test cpu nj res ->
  exists L (r : nat -> R), res = Ok L /\ nrow L = n /\ ncol L = n /\
    (forall i, i < n -> exists s, k_smallest (others D (training n test) i) k s /\ r i = (rsum (map fin_of s) / INR k)%R) /\
    forall i j, i < n -> j < n -> at2 L i j = if i =? j then XFin 0 else
      nicdm_val (local_geomean xexp xln xsum (map XFin (map r (seq 0 n))))
         (XFin (real_at D (Nat.min i j) (Nat.max i j))) (XFin (r (Nat.min i j))) (XFin (r (Nat.max i j))).
Proof.
  intros PO Hr Hc Hf Hk H. subst n.
  destruct (nicdm_radii_xr part D k test PO (eq_sym Hc) Hf Hk) as (r & E & K).
  apply nicdm_outcome in H. rewrite E in H. destruct H as (L & -> & R1 & R2 & A).
  exists L, r. split; [reflexivity|]. split; [assumption|]. split; [assumption|]. split; [exact K|].
  intros i j Hi Hj. destruct (A i j Hi Hj) as (A1 & A2). destruct (Nat.eqb_spec i j) as [Eij|Eij].
  - rewrite (maybe0_xr _ _ (A1 Eij)). reflexivity.
  - rewrite (maybe0_xr _ _ (A2 Eij)). unfold nicdm_cell. cbv beta. rewrite !nth_map_seq by lia. rewrite map_map.
    f_equal. assert (F : nisfin (at2 D (Nat.min i j) (Nat.max i j)) = true) by (apply Hf; lia).
    unfold real_at. simpl in F. now destruct (at2 D (Nat.min i j) (Nat.max i j)).
Qed.

(** ** C32.  [r i] is the mean of the k smallest distances of i to other
    training points, [g] the geometric mean of all radii. *)
Theorem C32_nicdm_formula :
  forall part (D : arr2 xr) n k test cpu n_jobs res,
    part_ok part -> nrow D = n -> ncol D = n ->
    (forall i j, i < n -> j < n -> i <> j -> nisfin (at2 D i j) = true) ->
    0 < k < length (training n test) ->
    nicdm xexp xln xsum part D (Z.of_nat k) "distance" test cpu n_jobs res ->
    exists L (r : nat -> R), res = Ok L /\ nrow L = n /\ ncol L = n /\
      (forall i, i < n -> exists s, k_smallest (others D (training n test) i) k (map XFin s) /\
         r i = (fold_right Rplus 0 s / INR k)%R) /\
      (forall i, i < n -> at2 L i i = XFin 0) /\
      (forall i j, i < n -> j < n -> at2 L i j = at2 L j i) /\
      ((forall i, i < n -> (0 < r i)%R) ->
       let g := exp (fold_right Rplus 0%R (map (fun i => ln (r i)) (seq 0 n)) / INR n) in
       (forall i j, i < j -> j < n ->
         at2 L i j = XFin (g * real_at D i j / sqrt (r i * r j)) /\
         ((0 <= real_at D i j)%R -> nle (XFin 0) (at2 L i j) = true))).
Proof.
  intros part D n k test cpu nj res PO Hr Hc Hf Hk H.
  destruct (nicdm_xr part D n k test cpu nj res PO Hr Hc Hf Hk H) as (L & r & -> & R1 & R2 & K & A).
  exists L, r. split; [reflexivity|]. split; [assumption|]. split; [assumption|]. split; [|split; [|split]].
  - intros i Hi. destruct (K i Hi) as (s & Ks & Es). exists (map fin_of s). split; [|exact Es].
    rewrite <- fin_list; [exact Ks|]. intros x Hx. apply (k_smallest_incl _ _ _ _ Ks) in Hx. apply others_in in Hx.
    destruct Hx as (j & Hj & Hne & ->). apply Hf; auto.
  - intros i Hi. rewrite A by assumption. now rewrite Nat.eqb_refl.
  - intros i j Hi Hj. rewrite !A by assumption. now rewrite (Nat.eqb_sym j i), (Nat.min_comm j i), (Nat.max_comm j i).
  - intros Hp g i j Hij Hj.
    assert (E : at2 L i j = XFin (g * real_at D i j / sqrt (r i * r j))).
    { rewrite A by lia. destruct (Nat.eqb_spec i j); [lia|]. rewrite Nat.min_l, Nat.max_r by lia.
      rewrite geomean_pos.
      - rewrite map_length, seq_length, map_map. fold g. unfold nicdm_val. simpl.
        assert (P : (0 < r i * r j)%R) by (apply Rmult_lt_0_compat; apply Hp; lia).
        destruct (Rlt_dec (r i * r j) 0); [lra|].
        destruct (Req_EM_T (sqrt (r i * r j)) 0) as [E0|]; [|reflexivity].
        exfalso. apply sqrt_lt_R0 in P. lra.
      - destruct n; [lia|discriminate].
      - intros x Hx. apply in_map_iff in Hx. destruct Hx as (a & <- & Ha). apply Hp. apply in_seq in Ha. lia. }
    split; [exact E|]. intros Hd. rewrite E. simpl. destruct (Rle_dec _ _) as [|Nn]; [reflexivity|]. exfalso. apply Nn.
    assert (Q : (0 < / sqrt (r i * r j))%R).
    { apply Rinv_0_lt_compat, sqrt_lt_R0, Rmult_lt_0_compat; apply Hp; lia. }
    unfold Rdiv. apply Rmult_le_pos; [|lra]. apply Rmult_le_pos; [|assumption]. unfold g. left. apply exp_pos.
Qed.

(** ** C28 (NICDM) *)
Theorem C28_nicdm_scales_linearly :
  forall part part' (D D' : arr2 xr) n (c : R) k test cpu n_jobs n_jobs' res res',
    part_ok part -> part_ok part' -> (0 < c)%R ->
    nrow D = n -> nrow D' = n -> ncol D = n -> ncol D' = n ->
    (forall i j, i < n -> j < n -> i <> j -> nisfin (at2 D i j) = true) ->
    (forall i j, i < n -> j < n -> i <> j -> at2 D' i j = nmul (XFin c) (at2 D i j)) ->
    0 < k < length (training n test) ->
    nicdm xexp xln xsum part D (Z.of_nat k) "distance" test cpu n_jobs res ->
    nicdm xexp xln xsum part' D' (Z.of_nat k) "distance" test cpu n_jobs' res' ->
    exists L L', res = Ok L /\ res' = Ok L' /\ nrow L = n /\ ncol L = n /\ nrow L' = n /\ ncol L' = n /\
      forall i j, i < n -> j < n -> at2 L' i j = nmul (XFin c) (at2 L i j).
Proof.
  intros part part' D D' n c k test cpu nj nj' res res' PO PO' Hc Hr Hr' Hcl Hcl' Hf HD Hk H H'.
  destruct (nicdm_xr part D n k test cpu nj res PO Hr Hcl Hf Hk H) as (L & r & -> & R1 & R2 & K & A).
  assert (Hf' : forall i j, i < n -> j < n -> i <> j -> nisfin (at2 D' i j) = true).
  { intros i j Hi Hj Hne. rewrite HD by assumption. specialize (Hf i j Hi Hj Hne). simpl in *. now destruct (at2 D i j). }
  destruct (nicdm_xr part' D' n k test cpu nj' res' PO' Hr' Hcl' Hf' Hk H') as (L' & r' & -> & R1' & R2' & K' & A').
  exists L, L'. split; [reflexivity|]. split; [reflexivity|]. repeat (split; [assumption|]).
  assert (Er : forall i, i < n -> r' i = (c * r i)%R).
  { intros i Hi. destruct (K i Hi) as (s & Ks & ->), (K' i Hi) as (s' & Ks' & ->).
    assert (Eo : others D' (training n test) i = map (xmul (XFin c)) (others D (training n test) i)).
    { unfold others. rewrite map_map. apply map_ext_in. intros j Hj. apply filter_In in Hj. destruct Hj as (Hj & Hn).
      apply HD; [assumption|now apply training_in in Hj|]. intros ->. now rewrite Nat.eqb_refl in Hn. }
    assert (Fo : forall x, In x (others D (training n test) i) -> xisfin x = true).
    { intros x Hx. apply others_in in Hx. destruct Hx as (j & Hj & Hne & ->). apply Hf; auto. }
    assert (Fo' : forall x, In x (others D' (training n test) i) -> xisfin x = true).
    { intros x Hx. apply others_in in Hx. destruct Hx as (j & Hj & Hne & ->). apply Hf'; auto. }
    pose proof (k_smallest_scale c _ _ _ Hc Ks) as Ks2. rewrite <- Eo in Ks2.
    rewrite (k_smallest_sum _ _ _ _ Fo' Ks' Ks2), rsum_fin_scale.
    - field. apply not_0_INR. lia.
    - intros x Hx. apply Fo. now apply (k_smallest_incl _ _ _ _ Ks). }
  assert (Eg : map r' (seq 0 n) = map (Rmult c) (map r (seq 0 n))).
  { rewrite map_map. apply map_ext_in. intros i Hi. apply Er. apply in_seq in Hi. lia. }
  intros i j Hi Hj. rewrite A, A' by assumption. destruct (Nat.eqb_spec i j) as [Eij|Eij].
  - simpl. f_equal. ring.
  - rewrite Eg. rewrite geomean_scale; [|destruct n; [lia|discriminate]|assumption].
    rewrite !Er by lia.
    assert (Ed : real_at D' (Nat.min i j) (Nat.max i j) = (c * real_at D (Nat.min i j) (Nat.max i j))%R).
    { unfold real_at. rewrite HD by lia.
      assert (F : nisfin (at2 D (Nat.min i j) (Nat.max i j)) = true) by (apply Hf; lia).
      simpl in F. now destruct (at2 D (Nat.min i j) (Nat.max i j)). }
    rewrite Ed. apply nicdm_val_scale; [assumption|].
    destruct (sign_cases (map r (seq 0 n))) as [S|[(x & Hx & S)|(S & S0)]].
    + right. eexists. apply geomean_pos; [destruct n; [lia|discriminate]|assumption].
    + left. now apply (geomean_neg _ x).
    + right. eexists. now apply geomean_zero.
Qed.

(** float64, whatever np.exp, np.log and np.sum return: symmetric values, zero diagonal *)
Theorem C32_nicdm_float64_symmetric :
  forall (vexp vln : f64 -> f64) vsum part (D : arr2 f64) k metric test cpu n_jobs L,
    nicdm vexp vln vsum part D k metric test cpu n_jobs (Ok L) ->
    metric = "distance"%string /\ nrow L = nrow D /\ ncol L = nrow D /\
    (forall i, i < nrow D -> neq (at2 L i i) n0 = true) /\
    (forall i j, i < nrow D -> j < nrow D -> same (at2 L i j) (at2 L j i) = true).
Proof.
  intros vexp vln vsum part D k metric test cpu nj L H. apply nicdm_outcome in H.
  destruct (nicdm_radii vsum part D k metric test) as [rs|e] eqn:E; [|discriminate].
  apply nicdm_radii_inv in E. destruct E as (_ & Em & _).
  destruct H as (L' & E & R1 & R2 & A). injection E as <-.
  split; [assumption|]. split; [assumption|]. split; [assumption|]. split.
  - intros i Hi. pose proof (proj1 (A i i Hi Hi) eq_refl) as [-> |[-> | ->]]; reflexivity.
  - intros i j Hi Hj. destruct (Nat.eq_dec i j) as [->|Hne]; [apply same_refl|].
    pose proof (proj2 (A i j Hi Hj) Hne) as M1. pose proof (proj2 (A j i Hj Hi) (not_eq_sym Hne)) as M2.
    rewrite (Nat.min_comm j i), (Nat.max_comm j i) in M2.
    eapply same_trans; [apply maybe0_same; exact M1|]. rewrite same_sym. now apply maybe0_same.
Qed.

(** three points at 0, 1, 3 with k = 2 meet the hypotheses; all radii are positive *)
Definition exN3 : arr2 xr := Arr2 3 3 (fun i j => XFin (Rabs (nth i [0; 1; 3]%R 0%R - nth j [0; 1; 3]%R 0%R))).
Example C32_case : exists L r, nicdm xexp xln xsum ref_part exN3 2 "distance" None 4 3 (Ok L) /\
  (r 0%nat = 2 /\ r 1%nat = 3 / 2 /\ r 2%nat = 5 / 2)%R /\
  at2 L 0 2 = XFin (exp ((ln (r 0%nat) + (ln (r 1%nat) + (ln (r 2%nat) + 0))) / INR 3) * 3 / sqrt (r 0%nat * r 2%nat)).
Proof.
  destruct (C29_nicdm_some_outcome xexp xln xsum ref_part exN3 (Z.of_nat 2) "distance" None 4 3) as (res & H).
  destruct (C32_nicdm_formula ref_part exN3 3 2 None 4 3 res) as (L & r & -> & _ & _ & K & _ & _ & F); auto.
  - apply ref_part_ok with (1 := xr_cmp).
  - assert (S2 : forall i, i < 3 -> r i = (rsum (map fin_of (others exN3 (seq 0 3) i)) / 2)%R).
    { intros i Hi. destruct (K i Hi) as (s & (Ls & rest & P & _) & ->). change (fold_right Rplus 0%R s) with (rsum s).
      assert (rest = []).
      { apply Permutation_length in P. rewrite app_length, Ls in P.
        assert (HL : length (others exN3 (training 3 None) i) = 2) by (destruct i as [|[|[|i]]]; [reflexivity|reflexivity|reflexivity|lia]).
        rewrite HL in P. destruct rest; [reflexivity|cbn [length] in P; lia]. }
      subst rest. rewrite app_nil_r in P. simpl training in P. rewrite (rsum_perm (map fin_of (others exN3 (seq 0 3) i)) (map fin_of (map XFin s))).
      - rewrite map_map. cbn [fin_of]. rewrite map_id. replace (INR 2) with 2%R by (simpl; lra). reflexivity.
      - now apply Permutation_map. }
    assert (R0 : r 0 = 2%R).
    { rewrite S2 by lia. simpl. replace (0 - 1)%R with (-(1))%R by ring. replace (0-3)%R with (-(3))%R by ring.
      rewrite !Rabs_Ropp, !Rabs_pos_eq by lra. lra. }
    assert (R1 : r 1 = (3/2)%R).
    { rewrite S2 by lia. simpl. replace (1 - 0)%R with 1%R by ring. replace (1-3)%R with (-(2))%R by ring.
      rewrite !Rabs_Ropp, !Rabs_pos_eq by lra. lra. }
    assert (R2 : r 2 = (5/2)%R).
    { rewrite S2 by lia. simpl. replace (3 - 0)%R with 3%R by ring. replace (3-1)%R with 2%R by ring.
      rewrite !Rabs_pos_eq by lra. lra. }
    exists L, r. split; [assumption|]. split; [auto|].
    destruct (fun Hp => F Hp 0 2) as (E & _); [|lia|lia|].
    { intros i Hi. destruct i as [|[|[|i]]]; try lia; lra. }
    rewrite E. unfold real_at. simpl at2. replace (0 - 3)%R with (-(3))%R by ring.
    rewrite Rabs_Ropp, Rabs_pos_eq by lra. reflexivity.
Qed.

Print Assumptions C28_nicdm_scales_linearly.
Print Assumptions C29_nicdm_some_outcome.
Print Assumptions C29_nicdm_schedule_independent.
Print Assumptions C32_nicdm_formula.
Print Assumptions C32_nicdm_float64_symmetric.
