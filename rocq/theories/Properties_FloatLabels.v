(** Property C185: class labels that are float64 numbers. *)
From Coq Require Import String.
From Coq Require Import ZArith Reals Lra List Arith Lia Bool Permutation Sorting.
From Flocq Require Import Core BinarySingleNaN.
From Verif Require Import Py Num Arr Sort S_Neighbors S_SNN S_KNN S_GK M_IO M_GK M_SNN M_KNN M_FloatLabels.
From Verif Require Import P_F64 P_GK P_GK2 P_SNN P_KNN P_KNN2 P_KNN3 P_KNN4 P_GK3 Properties_KNN Properties_GK.
Import ListNotations.
Local Open Scope string_scope.
Local Open Scope nat_scope.

Lemma astype_int_trunc (x : f64) : astype_int x = Ztrunc (B2R x).
Proof.
  unfold astype_int. apply eq_IZR. rewrite (Btrunc_correct 53 1024 emax1024 x).
  unfold round, F2R, scaled_mantissa, cexp, FIX_exp. cbn [Fnum Fexp bpow].
  rewrite Z.opp_0. cbn [bpow]. now rewrite !Rmult_1_r.
Qed.

Lemma key_value (x : f64) : (IZR (label_key x) = B2R x * bpow radix2 1074)%R.
Proof.
  destruct x as [s|s| |s m e He]; cbn [label_key B2R]; try (rewrite Rmult_0_l; reflexivity).
  assert (Hm : (- 1074 <= e)%Z).
  { unfold SpecFloat.bounded in He. apply andb_prop in He. destruct He as (He & _).
    unfold SpecFloat.canonical_mantissa in He. apply Zeq_bool_eq in He. unfold SpecFloat.fexp, SpecFloat.emin in He. lia. }
  unfold F2R. cbn [Fnum Fexp]. rewrite Rmult_assoc, <- bpow_plus.
  rewrite <- (IZR_Zpower radix2) by lia. rewrite <- mult_IZR. f_equal.
  change (radix_val radix2) with 2%Z. destruct s; cbn [SpecFloat.cond_Zopp]; lia.
Qed.

Lemma key_eq (x y : f64) : label_key x = label_key y <-> B2R x = B2R y.
Proof.
  split; intros H.
  - apply (f_equal IZR) in H. rewrite !key_value in H. apply Rmult_eq_reg_r in H; [exact H|].
    apply Rgt_not_eq, bpow_gt_0.
  - apply eq_IZR. now rewrite !key_value, H.
Qed.

(** ** C185 (1): whole numbers up to 2^53 are safe, in score (all arguments) and in the
    Goodman-Kruskal index *)
Theorem C185_whole_numbers :
  forall (D : arr2 f64) (zs : list Z), (forall z, In z zs -> (Z.abs z <= 2 ^ 53)%Z) ->
    (forall argsort rp sh ks metric test sample,
       score_float argsort rp sh D (map f64_ofZ zs) ks metric test sample =
       score argsort rp sh D zs ks metric test sample) /\
    (forall argsort sort metric, stable_ok argsort -> sort_ok sort ->
       nrow D = ncol D -> length zs = nrow D -> valid_metric metric = true ->
       (forall i j, i < nrow D -> j < nrow D -> i <> j -> neq (at2 D i j) (at2 D j i) = true) ->
       (Z.of_nat (n_smaller D zs + n_larger D zs) <= 2 ^ 53)%Z ->
       gk_index_float argsort sort D (map f64_ofZ zs) metric = goodman_kruskal_index argsort sort D zs metric).
Proof.
  intros D zs Hz. split.
  - intros. unfold score_float. f_equal. rewrite map_map. transitivity (map (fun z : Z => z) zs); [|apply map_id]. apply map_ext_in.
    intros z Hin. rewrite astype_int_trunc. rewrite (proj1 (f64_ofZ_exact z (Hz z Hin))). apply Ztrunc_IZR.
  - intros argsort sort metric HA HS Hsq HL Hv Hs Hb. unfold gk_index_float. rewrite map_map.
    apply (C18_relabelling_invariance argsort sort HA HS D zs metric (fun z => label_key (f64_ofZ z))); auto.
    intros x y Hx Hy E. apply key_eq in E.
    rewrite (proj1 (f64_ofZ_exact x (Hz x Hx))), (proj1 (f64_ofZ_exact y (Hz y Hy))) in E. now apply eq_IZR.
Qed.

(** ** C185 (2): score cannot tell labels with the same integer part apart; if all labels
    lie strictly between -1 and 1 everything counts as correctly classified, whatever the
    matrix *)
Theorem C185_fractions_are_lost :
  (forall argsort rp sh (D : arr2 f64) xs ys ks metric test sample,
     Forall2 (fun x y : f64 => is_finite x = true /\ is_finite y = true /\
       (Rabs (B2R x) < IZR (2 ^ 63))%R /\ Ztrunc (B2R x) = Ztrunc (B2R y)) xs ys ->
     score_float argsort rp sh D xs ks metric test sample = score_float argsort rp sh D ys ks metric test sample) /\
  (forall argsort, argsort_ok argsort ->
   forall rp, (forall i l, Permutation (rp i l) l) ->
   forall sh, (forall (i j : nat) l, Permutation (sh i j l) l) ->
   forall (D : arr2 f64) (xs : list f64) ks metric,
     nrow D = ncol D -> length xs = nrow D -> valid_metric metric = true ->
     (forall x, In x xs -> is_finite x = true /\ (Rabs (B2R x) < 1)%R) ->
     exists out, score_float argsort rp sh D xs ks metric None None = Ok out /\ length out = length ks /\
       forall s i, In s out -> i < nrow D -> k_corr s i = true).
Proof.
  split.
  - intros argsort rp sh D xs ys ks metric test sample H. unfold score_float. f_equal.
    induction H as [|x y xs ys (_ & _ & _ & Hxy) H IH]; [reflexivity|]. cbn [map]. rewrite IH, !astype_int_trunc, Hxy. reflexivity.
  - intros argsort AS rp RP sh SH D xs ks metric Hsq HL Hv Hx. unfold score_float.
    assert (H0 : forall z, In z (map astype_int xs) -> z = 0%Z).
    { intros z Hz. apply in_map_iff in Hz. destruct Hz as (x & <- & Hin). destruct (Hx x Hin) as (_ & Hx1).
      rewrite astype_int_trunc. apply Rabs_lt_inv in Hx1. destruct (Rle_or_lt 0 (B2R x)) as [L|L].
      - rewrite Ztrunc_floor by exact L. apply Zfloor_imp. simpl. lra.
      - rewrite Ztrunc_ceil by lra. apply Zceil_imp. simpl. lra. }
    destruct (loo_full f64_cmp argsort AS rp RP sh SH D (map astype_int xs) ks metric Hsq) as (out & pred & E & L & Hd & _);
      [now rewrite map_length|exact Hv|].
    exists out. split; [exact E|]. split; [exact L|]. intros s i Hs Hi.
    destruct (In_nth_error _ _ Hs) as (j & Hj). destruct (Hd j s Hj) as (De & _).
    assert (Hin : In i (seq 0 (nrow D))) by (apply in_seq; lia).
    rewrite (de_corr _ _ _ _ _ _ De i Hin). apply Z.eqb_eq.
    pose proof (de_pred _ _ _ _ _ _ De i Hin) as Hp. apply unique_In, H0 in Hp. rewrite Hp.
    apply H0. apply nth_In. rewrite map_length. lia.
Qed.

(** ** C185 (3): the Goodman-Kruskal index distinguishes all labels that are different
    numbers: it is the index of any integer labels with the same equalities *)
Theorem C185_gk_sees_fractions :
  forall argsort sort, stable_ok argsort -> sort_ok sort ->
  forall (D : arr2 f64) (xs : list f64) (zs : list Z) metric,
    nrow D = ncol D -> length xs = nrow D -> length zs = nrow D -> valid_metric metric = true ->
    (forall x, In x xs -> is_finite x = true) ->
    (forall i j, i < nrow D -> j < nrow D -> i <> j -> neq (at2 D i j) (at2 D j i) = true) ->
    (Z.of_nat (n_smaller D zs + n_larger D zs) <= 2 ^ 53)%Z ->
    (forall i j, i < nrow D -> j < nrow D ->
       (nth i zs 0 = nth j zs 0)%Z <-> B2R (nth i xs nnan) = B2R (nth j xs nnan)) ->
    gk_index_float argsort sort D xs metric = goodman_kruskal_index argsort sort D zs metric.
Proof.
  intros argsort sort HA HS D xs zs metric Hsq HL HZ Hv _ Hs Hb H. unfold gk_index_float.
  assert (Hw : forall i j, i < nrow D -> j < nrow D ->
    (nth i (map label_key xs) 0 =? nth j (map label_key xs) 0)%Z = (nth i zs 0 =? nth j zs 0)%Z).
  { intros i j Hi Hj. change 0%Z with (label_key nnan) at 1 2. rewrite !map_nth.
    apply eq_true_iff_eq. rewrite !Z.eqb_eq, key_eq. symmetry. now apply H. }
  assert (E1 : n_smaller D (map label_key xs) = n_smaller D zs) by (apply quadruples_ext; auto).
  assert (E2 : n_larger D (map label_key xs) = n_larger D zs) by (apply quadruples_ext; auto).
  rewrite !gk_index_spec; try assumption; rewrite ?E1, ?E2; auto. now rewrite map_length.
Qed.

(** ** C185 (4): so the two measures contradict each other: all objects are classified
    correctly and the Goodman-Kruskal index is -1 *)
Definition quarter : f64 := ndiv (nofZ 1) (nofZ 4).
Definition three_quarters : f64 := ndiv (nofZ 3) (nofZ 4).
Definition mixed_labels : list f64 := [quarter; quarter; three_quarters; three_quarters].
Lemma quarter_val : B2R quarter = (1 / 4)%R.
Proof. vm_compute. field. Qed.
Lemma three_quarters_val : B2R three_quarters = (3 / 4)%R.
Proof. vm_compute. field. Qed.

Theorem C185_measures_disagree :
  forall argsort sort, argsort_ok argsort -> stable_ok argsort -> sort_ok sort ->
  forall rp, (forall i l, Permutation (rp i l) l) ->
  forall sh, (forall (i j : nat) l, Permutation (sh i j l) l) ->
  forall ks, exists (g : f64) out,
    gk_index_float argsort sort sepD mixed_labels "distance" = Ok g /\ neq g (nofZ (-1)) = true /\
    score_float argsort rp sh sepD mixed_labels ks "distance" None None = Ok out /\ length out = length ks /\
    forall s i, In s out -> i < nrow sepD -> k_corr s i = true.
Proof.
  intros argsort sort AS HA HS rp RP sh SH ks.
  destruct (proj2 C185_fractions_are_lost argsort AS rp RP sh SH sepD mixed_labels ks "distance")
    as (out & E & L & Hc); [reflexivity|reflexivity|reflexivity| |].
  { intros x [<-|[<-|[<-|[<-|[]]]]]; (split; [vm_compute; reflexivity|]); rewrite ?quarter_val, ?three_quarters_val; apply Rabs_lt; lra. }
  exists (gamma (n_smaller sepD [0; 0; 1; 1]%Z) (n_larger sepD [0; 0; 1; 1]%Z)), out. split; [|split; [|split; [exact E|split; [exact L|exact Hc]]]].
  - rewrite (C185_gk_sees_fractions argsort sort HA HS sepD mixed_labels [0; 0; 1; 1]%Z "distance" eq_refl eq_refl eq_refl eq_refl).
    + apply (C17_index_is_gamma argsort sort HA HS sepD [0; 0; 1; 1]%Z "distance" eq_refl eq_refl eq_refl).
      * change (nrow sepD) with 4. intros i j Hi Hj _.
        do 4 (destruct i as [|i]; [do 4 (destruct j as [|j]; [vm_compute; reflexivity|]); lia|]). lia.
      * vm_compute. discriminate.
    + intros x [<-|[<-|[<-|[<-|[]]]]]; vm_compute; reflexivity.
    + change (nrow sepD) with 4. intros i j Hi Hj _.
      do 4 (destruct i as [|i]; [do 4 (destruct j as [|j]; [vm_compute; reflexivity|]); lia|]). lia.
    + vm_compute. discriminate.
    + change (nrow sepD) with 4. intros i j Hi Hj.
      do 4 (destruct i as [|i]; [do 4 (destruct j as [|j]; [cbn [nth mixed_labels]; rewrite ?quarter_val, ?three_quarters_val; split; intros; (reflexivity || lra || lia)|]); lia|]). lia.
  - vm_compute. reflexivity.
Qed.

(** the hypotheses are met: whole numbers as float64 labels *)
Example C185_case :
  (forall z, In z [1; 2; 1; 2]%Z -> (Z.abs z <= 2 ^ 53)%Z) /\
  exists s, score_float ref_argsort (fun _ l => l) (fun _ _ l => l) sepD (map f64_ofZ [1; 2; 1; 2]%Z) [1%Z] "distance" None None = Ok [s] /\
    k_corr s 3 = true /\ k_cmat s 1 1 = 2.
Proof.
  split; [intros z Hz; cbn in Hz; destruct Hz as [<-|[<-|[<-|[<-|[]]]]]; vm_compute; discriminate|].
  eexists. split; [reflexivity|]. split; vm_compute; reflexivity.
Qed.

Print Assumptions C185_whole_numbers.
Print Assumptions C185_fractions_are_lost.
Print Assumptions C185_gk_sees_fractions.
Print Assumptions C185_measures_disagree.
