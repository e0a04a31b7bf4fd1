(** Property C193: exact duplicates among the objects. *)
From Coq Require Import String.
From Coq Require Import ZArith List Arith Lia Bool Permutation Reals Lra.
From Flocq Require Import Core BinarySingleNaN.
From Verif Require Import Py Num NumT Arr Sort Conc S_Neighbors S_MP S_SNN S_Relabel M_IO M_Hubness M_MPEmpiric M_SNN.
From Verif Require Import P_Neighbors P_F64 P_Hubness P_MPEmpiric P_MPEmpiric2 P_SNN P_Relabel P_Relabel2.
From Verif Require Import Properties_Hubness Properties_MP Properties_SNN Properties_CountAcc Properties_Remote.
Import ListNotations.
Local Open Scope nat_scope.

(** ** Specification *)
(** [a] and [b] have distance zero and the same positive, finite distances to all others *)
Definition duplicates (D : arr2 f64) (a b : nat) : Prop :=
  a < nrow D /\ b < nrow D /\ a <> b /\ at2 D a b = n0 /\ at2 D b a = n0 /\
  forall x, x < nrow D -> x <> a -> x <> b ->
    at2 D a x = at2 D b x /\ nlt n0 (at2 D a x) = true /\ nisfin (at2 D a x) = true.

Lemma dup_sym D a b : duplicates D a b -> duplicates D b a.
Proof. intros (A & B & N & Z1 & Z2 & H). do 3 (split; [auto|]). split; [exact Z2|]. split; [exact Z1|]. intros x Hx H1 H2. destruct (H x Hx H2 H1) as (E & F). rewrite <- E. auto. Qed.

(** ** Hubness: duplicates are each other's first neighbour *)
Theorem C193_hubness :
  forall (argpart : list f64 -> list nat -> list nat), argpart_ok argpart ->
  forall sparse (D : arr2 f64) (k : nat) se rps a b,
    nrow D = ncol D -> duplicates D a b -> 0 < k < nrow D ->
    (forall i, i < nrow D -> Permutation (rps i) (seq 0 (ncol D))) ->
    exists o, hubness_serial argpart sparse D (Z.of_nat k) "distance" se rps = Ok o /\
      hd a (nth a (out_Dk o) []) = b /\ hd b (nth b (out_Dk o) []) = a.
Proof.
  intros argpart AP sparse D k se rps a b Hsq Du Hk Hrp.
  destruct (C02_serial_neighbours_are_nearest argpart AP sparse D k "distance" se rps eq_refl) as (o & Ho & L & _ & K); [destruct Du; lia|now left|assumption|].
  exists o. split; [exact Ho|].
  assert (G : forall a b, duplicates D a b -> hd a (nth a (out_Dk o) []) = b); [|split; [now apply G|apply G; now apply dup_sym]].
  clear a b Du. intros a b (Ha & Hb & Hne & Z1 & Z2 & H). pose proof (K a Ha) as [l1 l2 l3 l4 l5].
  rewrite <- Hsq, Nat.min_l in l1, l4 by lia. rewrite <- Hsq in l3, l5. set (l := nth a (out_Dk o) []) in *.
  assert (Eb : eff "distance" D a b = n0). { unfold eff. rewrite usable_sq by assumption. rewrite Z1. replace (b =? a) with false by (symmetry; apply Nat.eqb_neq; auto). reflexivity. }
  assert (Pos : forall x, x < nrow D -> x <> b -> nearer "distance" (eff "distance" D a b) (eff "distance" D a x) = true).
  { intros x Hx Hxb. rewrite Eb. unfold eff, nearer. rewrite usable_sq by assumption. destruct (Nat.eqb_spec x a) as [->|Hxa].
    - rewrite andb_false_r. reflexivity.
    - destruct (H x Hx Hxa Hxb) as (_ & P & F). rewrite F. exact P. }
  assert (Ib : In b l).
  { destruct (in_dec Nat.eq_dec b l) as [|Hn]; [assumption|]. exfalso. destruct l as [|y l']; [cbn in l1; lia|].
    assert (Hy : In y (y :: l')) by now left. assert (Hyb : y <> b) by congruence.
    pose proof (l5 b y Hb Hn Hy) as Q. rewrite (Pos y (l3 y Hy) Hyb) in Q. discriminate. }
  destruct l as [|y l']; [contradiction|]. cbn [hd]. destruct Ib as [|Ib]; [assumption|]. exfalso.
  assert (Hyb : y <> b) by (intros ->; inversion l2; contradiction).
  apply (In_nth _ _ 0) in Ib as (p & Hp & Ep). cbn [length] in l1.
  pose proof (l4 0 (S p) ltac:(lia) ltac:(lia)) as Q. cbn [nth] in Q. rewrite Ep in Q. rewrite (Pos y (l3 y ltac:(now left)) Hyb) in Q. discriminate.
Qed.

(** ** Empiric Mutual Proximity: duplicates have the smallest distance two different objects can
    have, which is not zero; they agree in their distances to all others *)
Lemma farther_sym (D : arr2 f64) n i j d : farther_from_both D n i j d = farther_from_both D n j i d.
Proof. unfold farther_from_both. apply count_if_ext. intros x _. rewrite (andb_comm (negb (x =? i))). f_equal. apply andb_comm. Qed.
Lemma farther_le (D : arr2 f64) n i j d : i < n -> j < n -> i <> j -> farther_from_both D n i j d + 2 <= n.
Proof.
  intros Hi Hj Hne. unfold farther_from_both. apply (count_if_excl2 _ n i j); auto.
  - now rewrite Nat.eqb_refl.
  - now rewrite Nat.eqb_refl, andb_false_r.
Qed.
Lemma count_all_but2 p n a b : a < n -> b < n -> a <> b -> (forall x, x < n -> p x = negb (x =? a) && negb (x =? b)) -> count_if p n + 2 = n.
Proof.
  intros Ha Hb Hne H. pose proof (count_if_neg p n) as Q. pose proof (count_if_or_and (fun i => i =? a) (fun i => i =? b) n) as Ho.
  rewrite !count_if_eq1 in Ho by assumption. rewrite (count_if_ext (fun i => (i =? a) && (i =? b)) (fun _ => false)) in Ho.
  2:{ intros i Hi. destruct (Nat.eqb_spec i a), (Nat.eqb_spec i b); simpl; auto; congruence. }
  rewrite count_if_false in Ho. rewrite (count_if_ext (fun i => negb (p i)) (fun i => (i =? a) || (i =? b))) in Q; [lia|].
  intros i Hi. rewrite H by assumption. rewrite negb_andb, !negb_involutive. reflexivity.
Qed.
Lemma share_positive n c : c < n -> (Z.of_nat n <= 2 ^ 50)%Z -> nlt n0 (float_share false n c) = true.
Proof.
  intros Hc Hb. destruct (share_close false n c ltac:(lia) ltac:(lia) Hb) as (F & E). unfold share in E.
  assert (Pn : (0 < INR n)%R) by (apply (lt_INR 0); lia).
  assert (Hn50 : (INR n <= bpow radix2 50)%R) by (rewrite INR_IZR_INZ; apply IZR_le in Hb; exact Hb).
  assert (I : (bpow radix2 (-50) <= / INR n)%R) by (change (-50)%Z with (- (50))%Z; rewrite bpow_opp; apply Rinv_le; assumption).
  assert (P : (bpow radix2 (-50) = 4 * bpow radix2 (-52))%R) by (cbn; lra). pose proof (bpow_gt_0 radix2 (-52)) as P0.
  assert (G : (INR c / INR n + / INR n <= 1)%R).
  { replace 1%R with (INR n * / INR n)%R by (field; lra). unfold Rdiv. replace (INR c * / INR n + / INR n)%R with (INR (S c) * / INR n)%R by (rewrite S_INR; lra).
    apply Rmult_le_compat_r; [left; now apply Rinv_0_lt_compat|]. apply le_INR. lia. }
  apply Rabs_le_inv in E. change (Bltb (n0 : f64) (float_share false n c) = true). rewrite Bltb_correct by (reflexivity || exact F).
  apply Rlt_bool_true. change (B2R (n0 : f64)) with 0%R. lra.
Qed.

Theorem C193_mutual_proximity :
  forall (D : arr2 f64) a b, symmetric D -> duplicates D a b -> (Z.of_nat (nrow D) <= 2 ^ 50)%Z ->
  exists M, mp_empiric_full D "distance" TNone = Ok M /\
    at2 M a b = nsub n1 (ndiv (nofnat (nrow D - 2)) (nofnat (nrow D))) /\ nlt n0 (at2 M a b) = true /\
    (forall i j, i < nrow D -> j < nrow D -> i <> j -> nle (at2 M a b) (at2 M i j) = true) /\
    (forall x, x < nrow D -> x <> a -> x <> b -> at2 M a x = at2 M b x).
Proof.
  intros D a b (Hsq & Sy) (Ha & Hb & Hne & Z1 & Z2 & H) Hn. set (n := nrow D) in *.
  destruct (C07_mp_distance_formula D ltac:(fold n; lia) Hsq) as (M & HM & _ & _ & _ & A). fold n in A. exists M. split; [exact HM|].
  assert (F : forall i j, i < n -> j < n -> i <> j -> at2 M i j = float_share false n (farther_from_both D n i j (at2 D i j))).
  { intros i j Hi Hj Hij. destruct (Nat.lt_ge_cases i j) as [C|C].
    - rewrite (proj1 (A i j C Hj)). rewrite (Sy j i) by assumption. reflexivity.
    - destruct (A j i ltac:(lia) Hi) as (A1 & A2). rewrite A2, A1. rewrite farther_sym. reflexivity. }
  assert (Cab : farther_from_both D n a b (at2 D a b) + 2 = n).
  { unfold farther_from_both. apply (count_all_but2 _ n a b); auto. intros x Hx. destruct (Nat.eqb_spec x a) as [|Hxa]; [reflexivity|]. destruct (Nat.eqb_spec x b) as [|Hxb]; [reflexivity|].
    cbn [negb andb]. destruct (H x Hx Hxa Hxb) as (E & P & _). rewrite Z1, <- E, P. reflexivity. }
  assert (Fab : at2 M a b = float_share false n (n - 2)) by (rewrite F by assumption; f_equal; lia).
  split; [exact Fab|]. split; [rewrite Fab; apply share_positive; lia|]. split.
  - intros i j Hi Hj Hij. rewrite Fab, F by assumption. pose proof (farther_le D n i j (at2 D i j) Hi Hj Hij) as Q.
    apply (share_order false n); lia.
  - intros x Hx Hxa Hxb. rewrite !F by auto. f_equal. destruct (H x Hx Hxa Hxb) as (E & P & _). rewrite <- E. unfold farther_from_both. apply count_if_ext. intros y Hy.
    destruct (Nat.eqb_spec y x) as [|Hyx]; [now rewrite !andb_false_r|]. cbn [negb]. rewrite !andb_true_r.
    destruct (Nat.eqb_spec y a) as [->|Hya]; [|destruct (Nat.eqb_spec y b) as [->|Hyb]].
    + cbn [negb]. replace (a =? b) with false by (symmetry; now apply Nat.eqb_neq). cbn [negb andb]. rewrite Z2, (nlt_asym f64_cmp _ _ P). reflexivity.
    + cbn [negb andb]. rewrite Z1, (nlt_asym f64_cmp _ _ P). reflexivity.
    + cbn [negb andb]. destruct (H y Hy Hya Hyb) as (E' & _). rewrite E'. reflexivity.
Qed.

Lemma filter_all {A} (P : A -> bool) l : (forall x, In x l -> P x = true) -> length (filter P l) = length l.
Proof. induction l as [|x l IH]; intros H; [reflexivity|]. cbn [filter]. rewrite H by now left. cbn [length]. f_equal. apply IH. intros y Hy. apply H. now right. Qed.
Lemma filter_length_mono {A} (P Q : A -> bool) l : (forall x, In x l -> P x = true -> Q x = true) -> length (filter P l) <= length (filter Q l).
Proof.
  induction l as [|x l IH]; intros H; [auto|]. cbn [filter]. specialize (IH (fun y Hy => H y (or_intror Hy))).
  pose proof (H x (or_introl eq_refl)) as Hx. destruct (P x); [rewrite Hx by reflexivity; cbn [length]; lia|]. destruct (Q x); cbn [length]; lia.
Qed.

(** ** Shared neighbours: duplicates never get the distance zero *)
Definition swap (a b x : nat) : nat := if x =? a then b else if x =? b then a else x.
Lemma swap_renaming n a b : a < n -> b < n -> renaming n (swap a b) (swap a b).
Proof.
  intros Ha Hb x Hx. assert (G : forall y, y < n -> swap a b y < n) by (intros y Hy; unfold swap; destruct (y =? a), (y =? b); lia).
  assert (I : swap a b (swap a b x) = x).
  { unfold swap. destruct (Nat.eqb_spec x a) as [->|Hxa].
    - destruct (Nat.eqb_spec b a); [auto|]. now rewrite Nat.eqb_refl.
    - destruct (Nat.eqb_spec x b) as [->|Hxb]; [now rewrite Nat.eqb_refl|]. rewrite (proj2 (Nat.eqb_neq _ _) Hxa), (proj2 (Nat.eqb_neq _ _) Hxb). reflexivity. }
  auto.
Qed.

Theorem C193_shared_neighbours :
  forall (argpart : list f64 -> list nat -> list nat), argpart_ok argpart ->
  forall (D : arr2 f64) k a b,
    nrow D = ncol D -> duplicates D a b -> 0 < k < nrow D -> (Z.of_nat k <= 2 ^ 50)%Z ->
    exists M, snn_serial argpart D (Z.of_nat k) "distance" = Ok M /\
      nlt n0 (at2 M a b) = true /\
      nle (nsub n1 (ndiv (nofnat (k - 1)) (nofnat k))) (at2 M a b) = true /\
      ((forall x y, x < nrow D -> y < nrow D -> x <> y -> x <> a -> y <> a -> neq (at2 D a x) (at2 D a y) = false) ->
       at2 M a b = nsub n1 (ndiv (nofnat (k - 1)) (nofnat k))).
Proof.
  intros argpart AP D k a b Hsq Du Hk Hb. set (n := nrow D) in *. pose proof Du as (Ha & Hb' & Hne & Z1 & Z2 & H). fold n in Ha, Hb', H.
  destruct (C14_snn_formula argpart AP "distance" D k eq_refl Hsq (proj1 Hk) ltac:(lia) ltac:(left; fold n; lia)) as (M & hood & HM & _ & _ & K & _ & A).
  exists M. split; [exact HM|]. fold n in K, A.
  assert (Fin : forall a b, duplicates D a b -> forall x, x < n -> x <> a -> nisfin (at2 D a x) = true).
  { clear. intros a b (_ & _ & _ & Z1 & _ & H) x Hx Hxa. destruct (Nat.eq_dec x b) as [->|Hxb]; [now rewrite Z1|]. now apply (H x). }
  assert (Self : forall a b, duplicates D a b -> ~ In a (hood a)) by (intros c d Dc; apply (K c (proj1 Dc)); [intros; eapply Fin; eauto|lia]).
  assert (Oth : forall a b, duplicates D a b -> In b (hood a)).
  { intros c d Dc. destruct (in_dec Nat.eq_dec d (hood c)) as [|Hn]; [assumption|]. exfalso. pose proof (Self c d Dc) as Sc. destruct Dc as (Hc & Hd & Hcd & Y1 & _ & Hx).
    destruct (K c Hc) as ([k1 k2 k3 k4] & _). destruct (hood c) as [|y l]; [cbn in k1; lia|].
    assert (Hy : In y (y :: l)) by now left. pose proof (k4 d y Hd Hn Hy) as Q. unfold rank_value, nearer in Q. cbn -[nlt] in Q.
    rewrite (proj2 (Nat.eqb_neq d c)) in Q by auto. rewrite (proj2 (Nat.eqb_neq y c)) in Q by (intros ->; contradiction). rewrite Y1 in Q.
    destruct (Hx y (k3 y Hy)) as (_ & P & _); [intros ->; contradiction|intros ->; contradiction|]. congruence. }
  pose proof (Self a b Du) as Sa. pose proof (Oth a b Du) as Ob. pose proof (Self b a (dup_sym _ _ _ Du)) as Sb. pose proof (Oth b a (dup_sym _ _ _ Du)) as Oa.
  destruct (K a Ha) as (Ka & _). destruct (K b Hb') as (Kb & _). pose proof Ka as [k1 k2 k3 k4].
  assert (Fv : at2 M a b = float_share false k (overlap (hood a) (hood b))) by exact (proj1 (A a b Ha Hb' Hne) eq_refl).
  assert (Split : length (filter (fun x => negb (x =? b)) (hood a)) = k - 1).
  { assert (G : forall l, NoDup l -> In b l -> length (filter (fun x => negb (x =? b)) l) + 1 = length l).
    { clear. induction l as [|y l IH]; intros Nd Hin; [contradiction|]. inversion Nd as [|? ? N1 N2]; subst. cbn [filter length]. destruct (Nat.eqb_spec y b) as [->|Hyb]; cbn [negb].
      - rewrite filter_all; [lia|]. intros z Hz. apply negb_true_iff, Nat.eqb_neq. intros ->. contradiction.
      - destruct Hin as [Hin|Hin]; [congruence|]. cbn [length]. specialize (IH N2 Hin). lia. }
    specialize (G _ k2 Ob). lia. }
  assert (Le : overlap (hood a) (hood b) <= k - 1).
  { rewrite <- Split. unfold overlap. apply (filter_length_mono (fun x => existsb (Nat.eqb x) (hood b))). intros x _ Hx. apply existsb_exists in Hx as (y & Hy & E). apply Nat.eqb_eq in E. subst y.
    apply negb_true_iff, Nat.eqb_neq. intros ->. contradiction. }
  split; [rewrite Fv; apply share_positive; lia|]. split.
  { rewrite Fv. change (nsub n1 (ndiv (nofnat (k - 1)) (nofnat k))) with (float_share false k (k - 1)). apply (share_order false k); lia. }
  intros Un. rewrite Fv. change (nsub n1 (ndiv (nofnat (k - 1)) (nofnat k))) with (float_share false k (k - 1)). f_equal.
  set (p := swap a b).
  assert (Rv : forall x, x < n -> rank_value "distance" D b x = rank_value "distance" D a (p x)).
  { intros x Hx. unfold rank_value, p, swap. destruct (Nat.eqb_spec x a) as [->|Hxa].
    - rewrite (proj2 (Nat.eqb_neq a b)), (proj2 (Nat.eqb_neq b a)) by auto. congruence.
    - destruct (Nat.eqb_spec x b) as [->|Hxb]; [now rewrite Nat.eqb_refl|]. rewrite (proj2 (Nat.eqb_neq x a)) by auto. symmetry. now apply H. }
  assert (Kp : kset (fun x y => nearer "distance" (rank_value "distance" D a x) (rank_value "distance" D a y)) n k (map p (hood b))).
  { apply (kset_renamed _ n k p p); [now apply swap_renaming|]. destruct Kb as [b1 b2 b3 b4]. constructor; auto. intros x y Hx Hnx Hy. rewrite <- !Rv by auto. now apply b4. }
  assert (Tot : forall x y, x < n -> y < n -> x <> y -> nearer "distance" (rank_value "distance" D a x) (rank_value "distance" D a y) = true \/ nearer "distance" (rank_value "distance" D a y) (rank_value "distance" D a x) = true).
  { intros x y Hx Hy Hxy. pose proof (Fin a b Du x Hx) as Fx. pose proof (Fin a b Du y Hy) as Fy. pose proof (Un x y Hx Hy Hxy) as T.
    unfold nearer, rank_value, worst. rewrite (cl_fin _ _ _ f64_cmp) in Fx, Fy. rewrite (cl_eq _ _ _ f64_cmp) in T. rewrite !(cl_lt _ _ _ f64_cmp). change (is_sim "distance") with false. cbv iota.
    destruct (Nat.eqb_spec x a) as [->|Nx], (Nat.eqb_spec y a) as [->|Ny]; [congruence| | |].
    - specialize (Fy Ny). rewrite (cl_inf _ _ _ f64_cmp). destruct (f2x (at2 D a y)); try discriminate; auto.
    - specialize (Fx Nx). rewrite (cl_inf _ _ _ f64_cmp). destruct (f2x (at2 D a x)); try discriminate; auto.
    - specialize (Fx Nx). specialize (Fy Ny). specialize (T Nx Ny). destruct (f2x (at2 D a x)) as [| |r|]; try discriminate. destruct (f2x (at2 D a y)) as [| |s|]; try discriminate.
      cbn in *. destruct (Req_EM_T r s); [discriminate|]. destruct (Rlt_dec r s); [now left|]. right. destruct (Rlt_dec s r); [reflexivity|lra]. }
  apply Nat.le_antisymm; [exact Le|]. rewrite <- Split. unfold overlap. apply filter_length_mono. intros x Hx Hxb. apply negb_true_iff, Nat.eqb_neq in Hxb.
  assert (Hxa : x <> a) by congruence. pose proof (kset_unique _ _ _ _ _ Tot Ka Kp x Hx) as Q. apply in_map_iff in Q as (y & Ey & Hy).
  apply existsb_exists. exists x. split; [|apply Nat.eqb_refl]. unfold p, swap in Ey. destruct (y =? a); [congruence|]. destruct (y =? b); congruence.
Qed.

(** Objects at 0, 11, 5 and 5: the two duplicates get the distance 1/2, the two objects that are
    farthest apart the distance 0. *)
Definition dup_line : arr2 f64 := line_at [0; 11; 5; 5]%Z.
Theorem C193_farthest_objects_are_nearest :
  exists M, snn_serial ref_argpart dup_line 2 "distance" = Ok M /\
    duplicates dup_line 2 3 /\ (forall i j, i < 4 -> j < 4 -> nle (at2 dup_line i j) (at2 dup_line 0 1) = true) /\
    neq (at2 M 0 1) n0 = true /\ neq (at2 M 2 3) (ndiv n1 (nofZ 2)) = true.
Proof.
  assert (B : match snn_serial ref_argpart dup_line 2 "distance" with
              | Ok M => neq (at2 M 0 1) n0 && neq (at2 M 2 3) (ndiv n1 (nofZ 2)) | _ => false end = true) by (vm_compute; reflexivity).
  destruct (snn_serial ref_argpart dup_line 2 "distance") as [M|]; [|discriminate]. apply andb_prop in B as (B1 & B2).
  exists M. split; [reflexivity|]. split.
  - split; [cbn; lia|]. split; [cbn; lia|]. split; [lia|]. split; [reflexivity|]. split; [reflexivity|].
    intros x Hx H1 H2. cbn in Hx. destruct x as [|[|[|[|x]]]]; try lia; (split; [reflexivity|split; vm_compute; reflexivity]).
  - split; [intros i j Hi Hj; destruct i as [|[|[|[|i]]]], j as [|[|[|[|j]]]]; try lia; vm_compute; reflexivity|].
    now split.
Qed.
Example C193_case : symmetric dup_line /\ duplicates dup_line 2 3 /\ 0 < 2 < nrow dup_line /\
  (forall x y, x < 4 -> y < 4 -> x <> y -> x <> 2 -> y <> 2 -> neq (at2 dup_line 2 x) (at2 dup_line 2 y) = false).
Proof.
  split; [split; [reflexivity|]; cbn [dup_line line_at nrow length]; intros i j Hi Hj; destruct i as [|[|[|[|i]]]], j as [|[|[|[|j]]]]; try lia; reflexivity|].
  split; [destruct C193_farthest_objects_are_nearest as (M & _ & H & _); exact H|]. split; [cbn; lia|].
  intros x y Hx Hy H1 H2 H3. destruct x as [|[|[|[|x]]]], y as [|[|[|[|y]]]]; try lia; vm_compute; reflexivity.
Qed.

Print Assumptions C193_hubness.
Print Assumptions C193_mutual_proximity.
Print Assumptions C193_shared_neighbours.
Print Assumptions C193_farthest_objects_are_nearest.
