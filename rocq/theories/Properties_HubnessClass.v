(** Properties C42-C46, C64-C66: the class Hubness and hubness_from_vectors. *)
From Coq Require Import String.
From Coq Require Import ZArith List Arith Lia Bool Permutation Reals Lra.
From Flocq Require Import BinarySingleNaN.
From Verif Require Import Py Num NumT NumPow Arr Sort Conc S_Neighbors S_HubnessClass P_Neighbors M_Hubness M_Dist M_KNN M_HubnessClass.
From Verif Require Import P_Hubness P_HubnessMain P_F64 P_KNN P_HubnessClass P_HubnessReal P_HubnessClass2 P_HubnessClass3.
Import ListNotations.
Local Open Scope nat_scope.

(** In all statements: [argpart] is any function that meets numpy's contract
    for argpartition, [rdist] any distance between two rows, [vsum] and [vpow]
    any float sum and power. *)

(** ** C42: the Gini index *)
Theorem C42_gini_algorithms_agree :
  forall (mode mode' : string) (Nk : list Z),
    gini_num mode Nk = pair_differences Nk /\
    gini_index (V:=f64) mode Nk = gini_index mode' Nk.
Proof.
  intros mode mode' Nk. split; [apply gini_num_pairsum|]. unfold gini_index. now rewrite !gini_num_pairsum.
Qed.

(** the value is the correctly rounded quotient of the two exact sums, at most
    1 - 1/n exactly, below 1 in floating point, and 0 iff all are equal *)
Theorem C42_gini_range :
  forall (mode : string) (Nk : list Z),
    (forall x, In x Nk -> (0 <= x)%Z) -> (0 < total Nk)%Z ->
    (2 * Z.of_nat (length Nk) * total Nk <= 2 ^ 53)%Z ->
    let g := gini_index (V:=f64) mode Nk in
    let n := Z.of_nat (length Nk) in
    (0 <= n * pair_differences Nk <= (n - 1) * (2 * n * total Nk))%Z /\
    B2R g = rnd (IZR (pair_differences Nk) / IZR (2 * n * total Nk)) /\
    nle n0 g = true /\ nlt g n1 = true /\
    (pair_differences Nk = 0%Z <-> all_equal Nk).
Proof.
  intros mode Nk Hn Hp Hb g n.
  assert (Et : total Nk = sumZ Nk) by apply fold_right_sumZ.
  change (pair_differences Nk) with (pairsum Nk). rewrite Et in *.
  assert (Hne : Nk <> []) by (intros ->; cbn in Hp; lia).
  assert (Hl : 1 <= length Nk) by (destruct Nk; [congruence|cbn; lia]).
  destruct (pairsum_bound Nk Hn) as (B0 & B). specialize (B Hne).
  set (num := pairsum Nk) in *. set (den := (2 * n * sumZ Nk)%Z).
  assert (B2 : (0 <= num < den)%Z) by (unfold den, n; nia).
  assert (Eg : g = ndiv (nofnat (Z.to_nat num)) (nofnat (Z.to_nat den))).
  { unfold g, gini_index, nofnat. rewrite gini_num_pairsum. fold num. fold n. fold den. rewrite !Z2Nat.id by lia. reflexivity. }
  destruct (frac_correct (Z.to_nat num) (Z.to_nat den)) as (U & E); [lia|lia|rewrite Z2Nat.id; unfold den, n; lia|].
  split; [unfold n; nia|]. split.
  - rewrite Eg, E, !INR_IZR_INZ, !Z2Nat.id by lia. reflexivity.
  - rewrite Eg. split; [now apply unit_bounds|]. split.
    + apply frac_lt1_nlt; [lia|]. rewrite Z2Nat.id; unfold den, n; lia.
    + now apply pairsum_zero.
Qed.
Example ex_C42 :
  (forall x, In x [3; 0; 5]%Z -> (0 <= x)%Z) /\ (0 < total [3; 0; 5])%Z /\
  pair_differences [3; 0; 5]%Z = 20%Z /\ gini_num "space" [3; 0; 5]%Z = 20%Z /\ gini_num "TIME" [3; 0; 5]%Z = 20%Z.
Proof. split; [cbn; intuition lia|]. split; [cbn; lia|]. now vm_compute. Qed.

(** ** C43: the measures of fit_transform *)
Theorem C43_measures :
  forall argpart, argpart_ok argpart ->
  forall rdist vsum vpow metric k (hub_size : f64) bs n_jobs rps has_self X Y f,
    (1 <= bs)%Z -> 1 <= k -> in_wf X rps -> 0 < in_rows X ->
    fit_transform rdist vsum vpow argpart metric k hub_size bs n_jobs rps has_self X Y (Ok f) ->
    (* n_test neighbour lists of k distinct training points; occurrences count them *)
    length (f_nn f) = in_rows X /\ length (f_occ f) = in_train metric X Y /\
    (forall x, x < in_train metric X Y ->
       nth x (f_occ f) 0 = length (filter (fun r => existsb (Nat.eqb x) r) (f_nn f))) /\
    total (map Z.of_nat (f_occ f)) = Z.of_nat (in_rows X * k) /\
    (* antihubs and hubs are the points with no / at least hub_size * k occurrences *)
    (forall x, In x (f_antihubs f) <-> x < in_train metric X Y /\ nth x (f_occ f) 0 = 0) /\
    (forall x, In x (f_hubs f) <-> x < in_train metric X Y /\
       nle (nmul hub_size (nofnat k)) (nofnat (nth x (f_occ f) 0)) = true) /\
    (* the rates are rounded fractions in [0, 1] *)
    ((Z.of_nat (in_train metric X Y) <= 2 ^ 53)%Z ->
       nle n0 (f_antihub_occ f) = true /\ nle (f_antihub_occ f) n1 = true /\
       B2R (f_antihub_occ f) = rnd (INR (length (f_antihubs f)) / INR (in_train metric X Y))) /\
    ((Z.of_nat (in_rows X * k) < 2 ^ 53)%Z ->
       nle n0 (f_hub_occ f) = true /\ nle (f_hub_occ f) n1 = true /\
       B2R (f_hub_occ f) = rnd (rnd (INR (sum_nat (map (fun x => nth x (f_occ f) 0) (f_hubs f))) / INR k)
                                / INR (in_rows X))) /\
    ((Z.of_nat (in_rows X) <= 2 ^ 53)%Z ->
       nle n0 (f_groupie f) = true /\ nle (f_groupie f) n1 = true /\
       exists x, x < in_train metric X Y /\ (forall y, nth y (f_occ f) 0 <= nth x (f_occ f) 0) /\
         B2R (f_groupie f) = rnd (INR (nth x (f_occ f) 0) / INR (in_rows X))).
Proof.
  intros argpart AP rdist vsum vpow metric k hs bs nj rps hself X Y f Hb Hk Hw Hr H.
  destruct (fit_rows f64_cmp rdist vsum vpow argpart AP metric k hs bs nj rps hself X Y f Hb Hw H) as (M & L & HR).
  destruct (occurrence_conservation (f_nn f) (in_train metric X Y) k HR) as (O1 & O2 & O3 & O4).
  set (nt := in_train metric X Y) in *. set (n := in_rows X) in *. rewrite L in *.
  pose proof (measures_nn _ _ _ _ _ _ _ _ M) as (_ & Eo & One & _).
  unfold measures in M. apply bind_ok_inv in M as ([] & _ & M).
  assert (Ex : forall a b : hub_fit (V:=f64), Ok a = Ok b -> a = b) by (intros ? ? [=]; assumption).
  apply Ex in M. rewrite <- Eo in *.
  assert (Hnt : 0 < nt) by (rewrite <- O1; destruct (f_occ f); [congruence|cbn; lia]).
  assert (E1 : f_antihubs f = antihubs (f_occ f)) by (rewrite <- M at 1; reflexivity).
  assert (E2 : f_hubs f = hubs k (f_occ f) hs) by (rewrite <- M at 1; reflexivity).
  assert (E3 : f_antihub_occ f = antihub_occurrence (f_occ f)) by (rewrite <- M at 1; reflexivity).
  assert (E4 : f_hub_occ f = hub_occurrence k (f_occ f) n hs) by (rewrite <- M at 1; reflexivity).
  assert (E5 : f_groupie f = ndiv (nofnat (max_list (f_occ f))) (nofnat n)) by (rewrite <- M at 1; reflexivity).
  clear M Ex Eo H.
  split; [reflexivity|]. split; [exact O1|]. split; [exact O4|]. split.
  { rewrite <- O2. clear. unfold total. induction (f_occ f) as [|x l IH]; [reflexivity|]. cbn [map fold_right sum_nat]. lia. }
  split.
  { intros x. rewrite E1. unfold antihubs. rewrite filter_In, in_seq, O1, Nat.eqb_eq. split; intros (? & ?); split; lia. }
  split.
  { intros x. rewrite E2. unfold hubs. rewrite filter_In, in_seq, O1. split; intros (? & ?); split; auto; lia. }
  split; [intros B|split; intros B].
  - rewrite E3, E1. unfold antihub_occurrence. rewrite O1.
    assert (La : length (antihubs (f_occ f)) <= nt).
    { unfold antihubs. rewrite <- O1. rewrite <- (seq_length (length (f_occ f)) 0) at 2. apply filter_len_le. }
    destruct (frac_correct _ nt La Hnt B) as (U & E). destruct (unit_bounds _ U). auto.
  - rewrite E4, E2. unfold hub_occurrence.
    set (s := sum_nat _).
    assert (Ls : s <= n * k).
    { rewrite <- O2. unfold s, hubs.
      rewrite <- (map_nth_seq_nat (f_occ f)) at 2. apply sum_filter_le. }
    destruct (hub_frac s k n Ls) as (U & E); [lia|lia|lia|]. destruct (unit_bounds _ U). auto.
  - rewrite E5.
    assert (Hin : In (max_list (f_occ f)) (f_occ f)) by (now apply max_list_in).
    assert (Lm : max_list (f_occ f) <= n) by (now apply O3).
    destruct (frac_correct _ n Lm Hr B) as (U & E). destruct (unit_bounds _ U). split; [assumption|]. split; [assumption|].
    apply (In_nth _ _ 0) in Hin as (x & Hx & Ex). exists x. rewrite O1 in Hx. split; [assumption|]. split.
    + intros y. rewrite Ex. destruct (le_lt_dec (length (f_occ f)) y) as [Hy|Hy].
      * rewrite nth_overflow by assumption. lia.
      * apply max_list_le. now apply nth_In.
    + rewrite E. now rewrite Ex.
Qed.

(** the Robin Hood (Hoover) and Atkinson indices, over exact arithmetic *)
Theorem C43_hood_exact :
  forall Nk : list Z, (forall x, In x Nk -> (0 <= x)%Z) -> (0 < total Nk)%Z ->
    exists r, hood_index (V:=xr) xsum Nk = XFin r /\
      (0 <= r <= 1 - / INR (length Nk))%R /\ (r = 0%R <-> all_equal Nk).
Proof.
  intros Nk H1 H2. unfold total in H2. rewrite fold_right_sumZ in H2. exact (hood_range Nk H1 H2).
Qed.
Theorem C43_atkinson_exact :
  forall (eps : R) (Nk : list Z), (0 < eps < 1)%R -> (forall x, In x Nk -> (0 <= x)%Z) -> (0 < total Nk)%Z ->
    exists r, atkinson_index (V:=xr) xsum xpow (XFin eps) Nk = XFin r /\ (0 <= r < 1)%R.
Proof.
  intros eps Nk He H1 H2. unfold total in H2. rewrite fold_right_sumZ in H2. exact (atkinson_range Nk H1 H2 eps He).
Qed.

(** a run: 4 points on a line, precomputed, k = 1 *)
Definition ex_D : arr2 f64 :=
  Arr2 4 4 (fun i j => nofZ (Z.abs (nth i [0; 1; 3; 10]%Z 0%Z - nth j [0; 1; 3; 10]%Z 0%Z))).
Definition fsum (l : list f64) : f64 := fold_left nadd l n0.
Definition nat_list_eqb (a b : list nat) : bool := if list_eq_dec Nat.eq_dec a b then true else false.
Example ex_C43 : exists f,
  fit_transform (fun _ _ _ => n0) fsum (fun x _ => x) ref_argpart "precomputed" 1 (nofZ 2) 64 1 None true
    (InDense ex_D) None (Ok f) /\
  f_nn f = [[1]; [0]; [1]; [2]] /\ f_occ f = [1; 2; 1; 0] /\ f_antihubs f = [3] /\ f_hubs f = [1].
Proof.
  pose proof (ft_pre_dense (fun _ _ _ => n0) fsum (fun x _ => x) ref_argpart "precomputed" 1 (nofZ 2 : f64) 64 1 None true ex_D eq_refl) as H.
  cbv zeta in H. set (r := bind _ _) in H.
  assert (C : match r with Ok f => (if list_eq_dec (list_eq_dec Nat.eq_dec) (f_nn f) [[1]; [0]; [1]; [2]] then true else false) &&
     nat_list_eqb (f_occ f) [1; 2; 1; 0] && nat_list_eqb (f_antihubs f) [3] && nat_list_eqb (f_hubs f) [1] | Raise _ => false end = true)
    by (vm_compute; reflexivity).
  destruct r as [f|]; [|discriminate]. exists f. split; [exact H|].
  unfold nat_list_eqb in C. repeat destruct list_eq_dec; try discriminate C. auto.
Qed.

(** ** C44: the constructor *)
Theorem C44_constructor :
  forall k (hub_size : f64) metric rkn rko verbose n_jobs cpu rs,
    let bad :=
      (exists z, k = Some z /\ (z < 1)%Z) \/
      nle hub_size n0 = true \/
      ~ In metric ["euclidean"; "cosine"; "precomputed"]%string \/
      (forall b, rkn <> FBool b) \/ (forall b, rko <> FBool b) \/
      (n_jobs < -1 \/ n_jobs = 0)%Z \/ (verbose < 0)%Z \/
      (rs = SeedOther \/ exists z, rs = SeedInt z /\ (z < 0 \/ 2 ^ 32 <= z)%Z) in
    (bad /\ hub_init k hub_size metric rkn rko verbose n_jobs cpu rs = Raise ValueError) \/
    (~ bad /\ hub_init k hub_size metric rkn rko verbose n_jobs cpu rs
              = Ok (if (n_jobs =? -1)%Z then Z.of_nat cpu else n_jobs)).
Proof.
  intros k hs metric rkn rko verbose nj cpu rs bad. unfold hub_init.
  destruct (seed_bad rs) eqn:E1.
  { left. split; [|reflexivity]. do 7 right. destruct rs; cbn in E1; try discriminate; [|now left].
    right. eexists. split; [reflexivity|]. apply orb_prop in E1 as [E|E]; [apply Z.ltb_lt in E|apply Z.leb_le in E]; auto. }
  cbn [guard bind].
  destruct (match k with Some k => (k <? 1)%Z | None => false end) eqn:E2.
  { left. split; [|reflexivity]. left. destruct k as [z|]; [|discriminate]. exists z. split; [reflexivity|]. now apply Z.ltb_lt. }
  cbn [guard bind].
  destruct (nle hs n0) eqn:E3.
  { left. split; [|reflexivity]. right; left. reflexivity. }
  cbn [guard bind].
  destruct (String.eqb metric "euclidean" || String.eqb metric "cosine" || String.eqb metric "precomputed")%bool eqn:E4; cbn [negb guard bind].
  2:{ left. split; [|reflexivity]. do 2 right; left. intros Hin.
      apply orb_false_elim in E4 as (E4 & E43). apply orb_false_elim in E4 as (E41 & E42).
      apply String.eqb_neq in E41, E42, E43. cbn in Hin. intuition congruence. }
  destruct (not_bool rkn) eqn:E5; cbn [guard bind].
  { left. split; [|reflexivity]. do 3 right; left. intros b ->. discriminate. }
  destruct (not_bool rko) eqn:E6; cbn [guard bind].
  { left. split; [|reflexivity]. do 4 right; left. intros b ->. discriminate. }
  destruct ((nj <? -1) || (nj =? 0))%Z eqn:E7; cbn [guard bind].
  { left. split; [|reflexivity]. do 5 right; left. apply orb_prop in E7 as [E|E]; [apply Z.ltb_lt in E|apply Z.eqb_eq in E]; auto. }
  destruct (verbose <? 0)%Z eqn:E8; cbn [guard bind].
  { left. split; [|reflexivity]. do 6 right; left. now apply Z.ltb_lt. }
  right. split; [|reflexivity]. intros [(z & -> & Hz)|[H|[H|[H|[H|[H|[H|H]]]]]]].
  - apply Z.ltb_ge in E2. lia.
  - congruence.
  - apply H. apply orb_prop in E4 as [E4|E4]; [apply orb_prop in E4 as [E4|E4]|]; apply String.eqb_eq in E4; subst; cbn; auto.
  - destruct rkn as [b|]; [now apply (H b)|discriminate].
  - destruct rko as [b|]; [now apply (H b)|discriminate].
  - apply orb_false_elim in E7 as (E7 & E7'). apply Z.ltb_ge in E7. apply Z.eqb_neq in E7'. lia.
  - apply Z.ltb_ge in E8. lia.
  - destruct H as [->|(z & -> & Hz)]; [discriminate|]. cbn in E1. apply orb_false_elim in E1 as (E & E').
    apply Z.ltb_ge in E. apply Z.leb_gt in E'. lia.
Qed.
Example ex_C44 :
  hub_init (Some 5%Z) (nofZ 2 : f64) "cosine" (FBool true) (FBool false) 0 (-1) 4 SeedNone = Ok 4%Z /\
  hub_init None (nofZ 2 : f64) "euclidean" (FBool true) (FBool false) 0 1 4 (SeedInt 7) = Ok 1%Z /\
  hub_init (Some 0%Z) (nofZ 2 : f64) "cosine" (FBool true) (FBool false) 0 (-1) 4 SeedNone = Raise ValueError.
Proof. now vm_compute. Qed.

(** ** C45: batches and worker processes do not matter *)
Theorem C45_batching_irrelevant :
  forall argpart, argpart_ok argpart ->
  forall rdist vsum vpow metric k (hub_size : f64) rps has_self X Y bs n_jobs r bs' n_jobs' r',
    (1 <= bs)%Z -> (1 <= bs')%Z ->
    fit_transform rdist vsum vpow argpart metric k hub_size bs n_jobs rps has_self X Y r ->
    fit_transform rdist vsum vpow argpart metric k hub_size bs' n_jobs' rps has_self X Y r' ->
    r = r'.
Proof.
  intros argpart AP rdist vsum vpow metric k hs rps hself X Y bs nj r bs' nj' r' Hb Hb' H H'.
  destruct H as [X Y Hm|D Hm|m rows Hm|X Y Hm Hc|X Y r Hm Hc Hk]; inversion H'; subst; try congruence.
  cbv zeta in *.
  apply (k_neighbors_det f64_cmp rdist argpart AP) in Hk; [|assumption].
  match goal with G : k_neighbors _ _ _ _ _ _ _ _ _ bs' _ _ |- _ =>
    apply (k_neighbors_det f64_cmp rdist argpart AP) in G; [|assumption]; rewrite Hk, G; reflexivity end.
Qed.

(** every batch size and number of workers has a run *)
Theorem C45_runs_exist :
  forall rdist vsum vpow argpart metric k (hub_size : f64) rps has_self (X : arr2 f64) Y bs n_jobs,
    exists r, fit_transform rdist vsum vpow argpart metric k hub_size bs n_jobs rps has_self (InDense X) Y r.
Proof.
  intros. destruct (String.eqb metric "precomputed") eqn:Em.
  - apply String.eqb_eq in Em. destruct Y; eexists; [now apply ft_pre_y|now apply ft_pre_dense].
  - apply String.eqb_neq in Em.
    assert (G : forall (Z_ : arr2 f64) kth s e, exists r, k_neighbors rdist argpart X Z_ metric k kth s e bs n_jobs r).
    { intros Z_ kth s e. destruct (n_batches (nrow X) bs) as [nb|] eqn:Eb.
      - destruct (Z.eq_dec n_jobs 1) as [Ej|Ej]; [eexists; eapply kn_serial; eauto|].
        destruct (mapM (fun i => batch_nn rdist argpart X Z_ metric kth s e (batch_rows (Z.to_nat bs) (nrow X) i)) (seq 0 nb)) eqn:E.
        + eexists. eapply kn_pool; eauto. apply pool_run_exists.
        + apply mapM_raise in E as (i & Hi & E). apply in_seq in Hi. eexists. eapply kn_fail; eauto. lia.
      - eexists. apply kn_zero. unfold n_batches in Eb. destruct (Z.eqb_spec bs 0); [assumption|discriminate]. }
    destruct Y as [Y|].
    + destruct (Nat.eq_dec (ncol X) (ncol Y)) as [E|E]; [|eexists; now apply ft_features].
      destruct (G Y (zarange 0 (Z.of_nat (0 + k))) 0 (0 + k)) as (r & Hr). eexists. apply ft_vec; eauto.
    + destruct (G X (zarange 0 (Z.of_nat (1 + k))) 1 (1 + k)) as (r & Hr). eexists. apply ft_vec; eauto.
Qed.

(** what is returned for vectors against training vectors: the k nearest *)
Theorem C45_nearest_training_vectors :
  forall argpart, argpart_ok argpart ->
  forall rdist vsum vpow metric k (hub_size : f64) bs n_jobs rps has_self X Y f,
    (1 <= bs)%Z -> metric <> "precomputed"%string ->
    fit_transform rdist vsum vpow argpart metric k hub_size bs n_jobs rps has_self (InDense X) (Some Y) (Ok f) ->
    length (f_nn f) = nrow X /\
    forall i, i < nrow X ->
      knn_list (fun x y => nlt (rdist (ncol X) (at2 X i) (at2 Y x)) (rdist (ncol X) (at2 X i) (at2 Y y)))
               (nrow Y) k (nth i (f_nn f) []).
Proof.
  intros argpart AP rdist vsum vpow metric k hs bs nj rps hself X Y f Hb Hm H.
  inversion H; subst; try congruence. cbv zeta in *.
  match goal with G : bind _ _ = Ok f |- _ => apply bind_ok_inv in G as (nn & -> & G); apply measures_nn in G as (E & _) end.
  match goal with G : k_neighbors _ _ _ _ _ _ _ _ _ _ _ _ |- _ =>
    apply (vec_rows f64_cmp rdist argpart AP) in G as (L & HR); [|assumption] end.
  rewrite E. split; [assumption|]. intros i Hi. destruct (HR i Hi) as (_ & L' & HL & ->). exact HL.
Qed.

Theorem C45_batch_size_zero :
  forall rdist vsum vpow argpart metric k (hub_size : f64) n_jobs rps has_self X r,
    metric <> "precomputed"%string ->
    fit_transform rdist vsum vpow argpart metric k hub_size 0 n_jobs rps has_self (InDense X) None r ->
    r = Raise ZeroDivisionError.
Proof.
  intros rdist vsum vpow argpart metric k hs nj rps hself X r Hm H.
  inversion H; subst; try congruence. cbv zeta in *.
  match goal with G : k_neighbors _ _ _ _ _ _ _ _ _ _ _ _ |- _ => inversion G; subst; try reflexivity; discriminate end.
Qed.

Definition ex_X : arr2 f64 := Arr2 5 1 (fun i _ => nofZ (nth i [0; 1; 3; 10; 4]%Z 0%Z)).
Definition ex_dist (m : nat) (u v : nat -> f64) : f64 := vabs (nsub (u 0) (v 0)).
(** batches of 2 of 5 rows *)
Example ex_C45 : exists f,
  fit_transform ex_dist fsum (fun x _ => x) ref_argpart "euclidean" 2 (nofZ 2) 2 1 None false
    (InDense ex_X) (Some ex_D) (Raise AssertionError) /\
  fit_transform ex_dist fsum (fun x _ => x) ref_argpart "euclidean" 2 (nofZ 2) 2 1 None false
    (InDense ex_X) None (Ok f) /\
  f_nn f = [[1; 2]; [0; 2]; [4; 1]; [4; 2]; [2; 1]].
Proof.
  pose proof (kn_serial ex_dist ref_argpart ex_X ex_X "euclidean" 2 (zarange 0 (Z.of_nat (1 + 2))) 1 (1 + 2) 2 1 3 eq_refl eq_refl) as K.
  pose proof (ft_vec ex_dist fsum (fun x _ => x) ref_argpart "euclidean" 2 (nofZ 2 : f64) 2 1 None false ex_X None _
     ltac:(discriminate) I K) as H.
  cbv zeta in H. set (r := bind (bind _ _) _) in H.
  assert (C : match r with Ok f => (if list_eq_dec (list_eq_dec Nat.eq_dec) (f_nn f) [[1; 2]; [0; 2]; [4; 1]; [4; 2]; [2; 1]] then true else false)
     | Raise _ => false end = true) by (vm_compute; reflexivity).
  destruct r as [f|]; [|discriminate]. exists f. split; [apply ft_features; [discriminate|vm_compute; discriminate]|].
  split; [exact H|].
  destruct list_eq_dec; try discriminate C. auto.
Qed.

(** ** C46: the first of k + 1 neighbours is dropped as "self" *)
(** right if the point itself is strictly nearer than every other point *)
Theorem C46_self_dropped_precomputed :
  forall argpart, argpart_ok argpart ->
  forall rdist vsum vpow k (hub_size : f64) bs n_jobs rps D f,
    nrow D = ncol D -> in_wf (InDense D) rps ->
    fit_transform rdist vsum vpow argpart "precomputed" k hub_size bs n_jobs rps true (InDense D) None (Ok f) ->
    forall i, i < nrow D ->
      let v j := if nisfin (at2 D i j) then at2 D i j else ninf in
      (forall x, x < ncol D -> x <> i -> nlt (v i) (v x) = true) ->
      knn_others (fun x y => nlt (v x) (v y)) (ncol D) k i (nth i (f_nn f) []).
Proof.
  intros argpart AP rdist vsum vpow k hs bs nj rps D f Hsq Hw H i Hi v Hs.
  inversion H; subst; try congruence. cbv zeta in *. rewrite Hsq, Nat.eqb_refl in *. cbn [andb] in *.
  match goal with G : bind _ _ = Ok f |- _ => apply bind_ok_inv in G as (nn & G1 & G); apply measures_nn in G as (E & _) end.
  apply (pre_rows f64_cmp argpart AP D 1 k) in G1 as (_ & HR); [|exact Hw].
  destruct (HR i ltac:(lia)) as (_ & L & HL & EL). rewrite E, EL.
  apply knn_drop_self; auto.
Qed.

Theorem C46_self_dropped_vectors :
  forall argpart, argpart_ok argpart ->
  forall rdist (X : arr2 f64) k o, hubness_from_vectors rdist argpart X None k = Ok o ->
    length (out_Dk o) = nrow X /\ out_Nk o = bincount (concat (out_Dk o)) (nrow X) /\
    forall i, i < nrow X ->
      let v j := rdist (ncol X) (at2 X i) (at2 X j) in
      (exists L, knn_list (fun x y => nlt (v x) (v y)) (nrow X) (k + 1) L /\ nth i (out_Dk o) [] = tl L) /\
      ((forall x, x < nrow X -> x <> i -> nlt (v i) (v x) = true) ->
       knn_others (fun x y => nlt (v x) (v y)) (nrow X) k i (nth i (out_Dk o) [])).
Proof.
  intros argpart AP rdist X k o H. unfold hubness_from_vectors in H.
  apply bind_ok_inv in H as ([] & _ & H). apply bind_ok_inv in H as (Dk & E & H). injection H as <-. cbn [out_Dk out_Nk].
  split; [apply mapM_length in E; now rewrite seq_length in E|]. split; [reflexivity|].
  intros i Hi. set (v := fun j => rdist (ncol X) (at2 X i) (at2 X j)). assert (Hi' : i < length (seq 0 (nrow X))) by (now rewrite seq_length).
  pose proof (mapM_nth _ _ _ i 0 [] E Hi') as Er. rewrite seq_nth in Er by assumption. cbn [Nat.add] in Er.
  apply bind_ok_inv in Er as ([] & _ & Er). apply bind_ok_inv in Er as ([] & _ & Er).
  apply (row_nn_ok f64_cmp argpart AP 1 k None) in Er as (_ & L & HL & EL); [|exact I].
  assert (Lv : length (vec_row rdist X X i) = nrow X) by (unfold vec_row; now rewrite map_length, seq_length).
  rewrite Lv in HL.
  assert (Ev : forall x, x < nrow X -> vat (vec_row rdist X X i) x = v x).
  { intros x Hx. unfold vat, vec_row. now rewrite nth_map_seq by assumption. }
  assert (HL' : knn_list (fun x y => nlt (v x) (v y)) (nrow X) (1 + k) L).
  { destruct HL as [K1 K2 K3 K4 K5]. constructor; auto.
    - intros a b Hab Hb'. specialize (K4 a b Hab Hb'). rewrite !Ev in K4 by (apply K3, nth_In; lia). exact K4.
    - intros x y Hx Hn Hy. specialize (K5 x y Hx Hn Hy). rewrite !Ev in K5 by auto. exact K5. }
  rewrite EL. split.
  - exists L. split; [now rewrite Nat.add_comm|]. now destruct L.
  - intros Hs. now apply knn_drop_self.
Qed.

(** wrong if another point is as near as the point itself: there is a
    partition within numpy's contract that keeps the point in its own list *)
Theorem C46_duplicate_keeps_self :
  forall (D : arr2 f64) k i j, nrow D = ncol D -> 1 <= k -> k + 1 <= ncol D -> i < ncol D -> j < ncol D -> i <> j ->
    (forall x, x < ncol D -> nisfin (at2 D i x) = true) ->
    (forall x, x < ncol D -> nlt (at2 D i x) (at2 D i i) = false /\ nlt (at2 D i x) (at2 D i j) = false) ->
    exists argpart, argpart_ok argpart /\
      forall rdist vsum vpow (hub_size : f64) bs n_jobs, exists f,
        fit_transform rdist vsum vpow argpart "precomputed" k hub_size bs n_jobs None true (InDense D) None (Ok f) /\
        In i (nth i (f_nn f) []).
Proof.
  intros D k i j Hsq Hk Hkn Hi Hj Hij Hfin Hmin.
  exists (adv_argpart i j). pose proof (adv_argpart_ok f64_cmp i j Hij) as AP. split; [exact AP|].
  intros rdist vsum vpow hs bs nj.
  set (row := fun i => map (fun v => if nisfin v then v else ninf) (rowl D i)).
  assert (Lr : forall a, length (row a) = ncol D) by (intros a; unfold row, rowl; now rewrite !map_length, seq_length).
  assert (Vr : forall x, x < ncol D -> vat (row i) x = at2 D i x).
  { intros x Hx. unfold vat, row, rowl. rewrite map_map, nth_map_seq by assumption. now rewrite Hfin. }
  assert (NN : forall x, x < ncol D -> nisnan (at2 D i x) = false).
  { intros x Hx. specialize (Hfin x Hx). rewrite (cl_fin _ _ _ f64_cmp) in Hfin. rewrite (cl_nan _ _ _ f64_cmp).
    destruct (f2x (at2 D i x)); try discriminate; reflexivity. }
  assert (MM : forall w, w < ncol D -> (forall x, x < ncol D -> nlt (at2 D i x) (at2 D i w) = false) -> minimal (row i) w = true).
  { intros w Hw Hm. unfold minimal. apply forallb_forall. intros x Hx. apply in_seq in Hx. rewrite Lr in Hx.
    rewrite !Vr by lia. rewrite (sle_false_lt f64_cmp) by (apply NN; lia). rewrite Hm by lia. reflexivity. }
  destruct (adv_keeps i j (row i) k Hij) as (nni & Ei & Hin); rewrite ?Lr; try lia.
  { apply MM; auto. intros x Hx. now apply Hmin. }
  { apply MM; auto. intros x Hx. now apply Hmin. }
  assert (A : exists nn, k_neighbors_precomputed (adv_argpart i j) D (zarange 0 (Z.of_nat (1 + k))) 1 (1 + k) None = Ok nn).
  { unfold k_neighbors_precomputed.
    destruct (mapM _ _) as [nn|e] eqn:E; [eauto|]. exfalso. apply mapM_raise in E as (a & _ & E).
    destruct (row_nn_spec f64_cmp (adv_argpart i j) AP 1 k None (row a) I) as (L & _ & E'); [rewrite Lr; lia|].
    unfold row in E'. rewrite E' in E. discriminate. }
  destruct A as (nn & A).
  pose proof (pre_rows f64_cmp (adv_argpart i j) AP D 1 k None nn I A) as (Lnn & HR).
  destruct (measures vsum vpow k hs (nrow D) (ncol D) nn) as [f|e] eqn:M.
  - exists f. split.
    + pose proof (ft_pre_dense rdist vsum vpow (adv_argpart i j) "precomputed" k hs bs nj None true D eq_refl) as FT.
      cbv zeta in FT. rewrite Hsq, Nat.eqb_refl in FT. cbn [andb] in FT. rewrite A in FT. cbn [bind] in FT.
      rewrite Hsq in M. now rewrite M in FT.
    + apply measures_nn in M as (-> & _).
      unfold k_neighbors_precomputed in A. assert (Hi' : i < length (seq 0 (nrow D))) by (rewrite seq_length; lia).
      pose proof (mapM_nth _ _ _ i 0 [] A Hi') as E. rewrite seq_nth in E by lia. change (0 + i) with i in E.
      unfold row in Ei. rewrite Ei in E. injection E as <-. exact Hin.
  - exfalso. unfold measures in M. unfold guard in M. destruct (Nat.eqb_spec (length (bincount (concat nn) (ncol D))) 0) as [M0|]; [|discriminate M].
    assert (length (bincount (concat nn) (ncol D)) = ncol D); [|lia].
    apply bincount_length. intros x Hx. apply in_concat in Hx as (r & Hr & Hx).
    apply (In_nth _ _ []) in Hr as (a & Ha & <-). destruct (HR a ltac:(lia)) as (_ & L & HL & EL).
    rewrite EL in Hx. apply skipn_knn_facts in HL as (_ & _ & HL). auto.
Qed.
(** the hypotheses hold: points 0 and 1 coincide *)
Definition ex_dup : arr2 f64 :=
  Arr2 3 3 (fun i j => nofZ (Z.abs (nth i [0; 0; 5]%Z 0%Z - nth j [0; 0; 5]%Z 0%Z))).
Example ex_C46 :
  (forall x, x < ncol ex_dup -> nisfin (at2 ex_dup 0 x) = true) /\
  (forall x, x < ncol ex_dup -> nlt (at2 ex_dup 0 x) (at2 ex_dup 0 0) = false /\ nlt (at2 ex_dup 0 x) (at2 ex_dup 0 1) = false) /\
  (forall x, x < ncol ex_D -> x <> 2 -> nlt (at2 ex_D 2 2) (at2 ex_D 2 x) = true).
Proof.
  repeat split.
  - intros x Hx. cbn in Hx. do 3 (destruct x as [|x]; [vm_compute; reflexivity|]). lia.
  - cbn in H. do 3 (destruct x as [|x]; [vm_compute; reflexivity|]). lia.
  - cbn in H. do 3 (destruct x as [|x]; [vm_compute; reflexivity|]). lia.
  - intros x Hx Hne. cbn in Hx. do 4 (destruct x as [|x]; [try (vm_compute; reflexivity); congruence|]). lia.
Qed.

(** ** C64: metric='cosine' is accepted by the constructor and never works *)
Theorem C64_cosine_never_works :
  forall argpart, argpart_ok argpart ->
  forall rdist vsum vpow k (hub_size : f64) bs n_jobs rps has_self X Y r,
    (1 <= bs)%Z -> 0 < nrow X -> (match Y with None => True | Some Y => ncol X = ncol Y end) ->
    fit_transform rdist vsum vpow argpart "cosine" k hub_size bs n_jobs rps has_self (InDense X) Y r ->
    r = Raise TypeError.
Proof.
  intros argpart AP rdist vsum vpow k hs bs nj rps hself X Y r Hb Hr Hy H.
  inversion H; subst; try congruence; try discriminate.
  cbv zeta in *.
  match goal with G : k_neighbors _ _ _ _ _ _ _ _ _ _ _ _ |- _ =>
    apply (k_neighbors_det f64_cmp rdist argpart AP) in G; [|assumption]; rewrite G end.
  destruct (Nat.eqb_spec (nrow X) 0); [lia|]. reflexivity.
Qed.
Example ex_C64 : exists r,
  hub_init (Some 2%Z) (nofZ 2 : f64) "cosine" (FBool true) (FBool false) 0 1 4 SeedNone = Ok 1%Z /\
  fit_transform ex_dist fsum (fun x _ => x) ref_argpart "cosine" 2 (nofZ 2) 64 1 None false (InDense ex_X) None r /\
  0 < nrow ex_X.
Proof.
  destruct (C45_runs_exist ex_dist fsum (fun x _ => x) ref_argpart "cosine" 2 (nofZ 2) None false ex_X None 64 1) as (r & H).
  exists r. split; [now vm_compute|]. split; [exact H|]. cbn. lia.
Qed.

(** ** C65: a negative batch size silently makes object 0 everybody's neighbour *)
Theorem C65_negative_batch_size :
  forall rdist vsum vpow argpart metric k (hub_size : f64) bs n_jobs rps has_self X r,
    (bs < 0)%Z -> metric <> "precomputed"%string -> 0 < nrow X ->
    fit_transform rdist vsum vpow argpart metric k hub_size bs n_jobs rps has_self (InDense X) None r ->
    exists f, r = Ok f /\ f_nn f = repeat (repeat 0 k) (nrow X) /\
      f_occ f = (nrow X * k) :: repeat 0 (nrow X - 1).
Proof.
  intros rdist vsum vpow argpart metric k hs bs nj rps hself X r Hb Hm Hr H.
  inversion H as [| | | |X' Y' r0 Hm' Hc Hk EX EY Er]; subst; try congruence. cbv zeta in Hk.
  pose proof (n_batches_neg (nrow X) bs Hb) as NB.
  assert (Z0 : forall (A : nat -> nat -> nat), (forall i c, A i c = 0) ->
             map (fun i => map (A i) (seq 0 k)) (seq 0 (nrow X)) = repeat (repeat 0 k) (nrow X)).
  { intros A HA. apply (nth_ext _ _ [] []); [now rewrite map_length, repeat_length, seq_length|].
    intros i Hi. rewrite map_length, seq_length in Hi. rewrite nth_map_seq by assumption.
    rewrite (nth_indep (repeat (repeat 0 k) (nrow X)) [] (repeat 0 k)) by (now rewrite repeat_length).
    rewrite nth_repeat. apply (nth_ext _ _ 0 0); [now rewrite map_length, repeat_length, seq_length|].
    intros c Hc'. rewrite map_length, seq_length in Hc'. rewrite nth_map_seq by assumption. now rewrite nth_repeat. }
  assert (E : r0 = Ok (repeat (repeat 0 k) (nrow X))).
  { inversion Hk as [|nb Hj En|nb i e Hj En Hi He|nb nns buf Hj En Em Hrun]; subst.
    - lia.
    - rewrite NB in En. injection En as <-. cbn [seq mapM bind]. f_equal. rewrite for_0. unfold read2.
      apply (Z0 (fun i => at2 (full2 (nrow X) k 0) i)). reflexivity.
    - rewrite NB in En. injection En as <-. lia.
    - rewrite NB in En. injection En as <-. f_equal. apply (Z0 (fun i c => buf (i, c))). intros i c.
      destruct (pool_run_fun cell_eq cell_eq_spec (fun _ => 0) buf [] (fun _ => 0)) with (c := (i, c)) as (_ & P); auto.
      { intros t c' v []. } }
  subst r0. cbn [bind].
  assert (EC : concat (repeat (repeat 0 k) (nrow X)) = repeat 0 (nrow X * k)).
  { clear. induction (nrow X) as [|n IH]; [reflexivity|]. cbn [repeat concat Nat.mul]. rewrite IH. now rewrite repeat_app. }
  assert (EO : bincount (concat (repeat (repeat 0 k) (nrow X))) (nrow X) = (nrow X * k) :: repeat 0 (nrow X - 1)).
  { rewrite EC. assert (R0 : forall x, In x (repeat 0 (nrow X * k)) -> x < nrow X) by (intros x Hx; apply repeat_spec in Hx; lia).
    rewrite bincount_eq by assumption. destruct (nrow X) as [|n]; [lia|].
    cbn [seq map]. f_equal.
    - apply count_occ_repeat_eq. reflexivity.
    - rewrite Nat.sub_succ, Nat.sub_0_r. rewrite <- seq_shift, map_map.
      generalize (S n * k). intros q. apply (nth_ext _ _ 0 0); [now rewrite map_length, repeat_length, seq_length|].
      intros c Hc'. rewrite map_length, seq_length in Hc'. rewrite nth_map_seq by assumption. rewrite nth_repeat.
      apply count_occ_repeat_neq. lia. }
  unfold measures. rewrite EO. cbn [length Nat.eqb guard bind]. eexists. split; [reflexivity|]. split; reflexivity.
Qed.
(** then the "ratio" of groupies is k, above 1 *)
Example ex_C65 : exists f,
  fit_transform ex_dist fsum (fun x _ => x) ref_argpart "euclidean" 2 (nofZ 2) (-5) 1 None false (InDense ex_X) None (Ok f) /\
  nlt n1 (f_groupie f) = true.
Proof.
  pose proof (kn_serial ex_dist ref_argpart ex_X ex_X "euclidean" 2 (zarange 0 (Z.of_nat (1 + 2))) 1 (1 + 2) (-5) 1 0 eq_refl eq_refl) as K.
  pose proof (ft_vec ex_dist fsum (fun x _ => x) ref_argpart "euclidean" 2 (nofZ 2 : f64) (-5) 1 None false ex_X None _
     ltac:(discriminate) I K) as H.
  cbv zeta in H. set (r := bind (bind _ _) _) in H.
  assert (C : match r with Ok f => nlt n1 (f_groupie f) | Raise _ => false end = true) by (vm_compute; reflexivity).
  destruct r as [f|]; [|discriminate]. exists f. split; [exact H|exact C].
Qed.

(** ** C66: sparse precomputed distances *)
Theorem C66_sparse_neighbours :
  forall argpart, argpart_ok argpart ->
  forall rdist vsum vpow k (hub_size : f64) bs n_jobs rps has_self m rows r,
    srows_wf rows rps ->
    fit_transform rdist vsum vpow argpart "precomputed" k hub_size bs n_jobs rps has_self (InSparse m rows) None r ->
    (* no rows: IndexError; a row with fewer than k stored entries: ValueError *)
    (rows = [] -> r = Raise IndexError) /\
    (rows <> [] -> (exists row, In row rows /\ length row < k) -> r = Raise ValueError) /\
    (forall f, r = Ok f ->
      length (f_nn f) = length rows /\
      forall i, i < length rows ->
        let row := nth i rows [] in
        (* the columns of the k smallest stored entries, nearest first *)
        exists L, knn_list (fun x y => nlt (nth x (map snd row) nnan) (nth y (map snd row) nnan)) (length row) k L /\
          nth i (f_nn f) [] = map (fun p => nth p (map fst row) 0) L).
Proof.
  intros argpart AP rdist vsum vpow k hs bs nj rps hself m rows r Hw H.
  inversion H; subst; try congruence. split; [|split].
  - intros ->. reflexivity.
  - intros Hne (row & Hin & Hlt).
    rewrite (sparse_uniform argpart AP) by assumption.
    destruct (mapM _ _) as [nn|e] eqn:E; cbn [bind].
    + exfalso. apply (In_nth _ _ []) in Hin as (i & Hi & Ei).
      assert (Hi' : i < length (seq 0 (length rows))) by (now rewrite seq_length).
      pose proof (mapM_nth _ _ _ i 0 [] E Hi') as E'. rewrite seq_nth in E' by assumption. cbn [Nat.add] in E'.
      rewrite (sparse_row_bad argpart) in E'; [discriminate| |now rewrite Ei].
      destruct rps as [g|]; [now apply Hw|exact I].
    + f_equal. apply mapM_raise in E as (i & Hi & E). apply in_seq in Hi.
      destruct (le_lt_dec k (length (nth i rows []))) as [Hk|Hk].
      * destruct (sparse_row_spec f64_cmp argpart AP k (row_rp rps i) (nth i rows [])) as (L & _ & E'); auto.
        { destruct rps as [g|]; [apply Hw; lia|exact I]. }
        congruence.
      * rewrite (sparse_row_bad argpart) in E; [now injection E| |assumption].
        destruct rps as [g|]; [apply Hw; lia|exact I].
  - intros f Ef. match type of Ef with bind _ _ = _ => apply bind_ok_inv in Ef as (nn & E & G) end.
    apply measures_nn in G as (-> & _).
    apply (sparse_rows f64_cmp argpart AP) in E as (L & HR); [|assumption]. split; [assumption|].
    intros i Hi. destruct (HR i Hi) as (_ & HH). exact HH.
Qed.
(** has_self_distances is ignored: a stored zero on the diagonal makes a point
    its own neighbour *)
Theorem C66_self_entries_are_neighbours :
  forall rdist vsum vpow argpart k (hub_size : f64) bs n_jobs rps m rows r r',
    fit_transform rdist vsum vpow argpart "precomputed" k hub_size bs n_jobs rps true (InSparse m rows) None r ->
    fit_transform rdist vsum vpow argpart "precomputed" k hub_size bs n_jobs rps false (InSparse m rows) None r' ->
    r = r'.
Proof. intros. inversion H; subst; try congruence. inversion H0; subst; congruence. Qed.
Definition ex_rows : list (list (nat * f64)) :=
  [[(0, nofZ 0); (1, nofZ 3); (2, nofZ 1)]; [(0, nofZ 3); (1, nofZ 0)]].
Example ex_C66 : exists f,
  fit_transform ex_dist fsum (fun x _ => x) ref_argpart "precomputed" 2 (nofZ 2) 64 1 None true (InSparse 3 ex_rows) None (Ok f) /\
  f_nn f = [[0; 2]; [1; 0]].
Proof.
  pose proof (ft_pre_sparse ex_dist fsum (fun x _ => x) ref_argpart "precomputed" 2 (nofZ 2 : f64) 64 1 None true 3 ex_rows eq_refl) as H.
  set (r := bind _ _) in H.
  assert (C : match r with Ok f => (if list_eq_dec (list_eq_dec Nat.eq_dec) (f_nn f) [[0; 2]; [1; 0]] then true else false)
     | Raise _ => false end = true) by (vm_compute; reflexivity).
  destruct r as [f|]; [|discriminate]. exists f. split; [exact H|]. destruct list_eq_dec; [assumption|discriminate].
Qed.

Print Assumptions C42_gini_algorithms_agree.
Print Assumptions C42_gini_range.
Print Assumptions C43_measures.
Print Assumptions C43_hood_exact.
Print Assumptions C43_atkinson_exact.
Print Assumptions C44_constructor.
Print Assumptions C45_batching_irrelevant.
Print Assumptions C45_runs_exist.
Print Assumptions C45_nearest_training_vectors.
Print Assumptions C45_batch_size_zero.
Print Assumptions C46_self_dropped_precomputed.
Print Assumptions C46_self_dropped_vectors.
Print Assumptions C46_duplicate_keeps_self.
Print Assumptions C64_cosine_never_works.
Print Assumptions C65_negative_batch_size.
Print Assumptions C66_sparse_neighbours.
Print Assumptions C66_self_entries_are_neighbours.
