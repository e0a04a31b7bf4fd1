(** Property C179: values that are fractions of a count (empiric Mutual Proximity
    and shared nearest neighbours) in float64 (global_scaling.py:28-412,
    shared_neighbors.py:176-300). *)
From Coq Require Import String.
From Coq Require Import ZArith Reals Lra List Arith Lia Bool Permutation.
From Flocq Require Import Core BinarySingleNaN.
From Verif Require Import Py Num Arr Sort S_Neighbors S_MP S_SNN M_IO M_Hubness M_MPEmpiric M_SNN.
From Verif Require Import P_Neighbors P_F64 P_Hubness P_MPEmpiric P_MPEmpiric2 P_SNN Properties_MP Properties_SNN.
Import ListNotations.
Local Open Scope nat_scope.

(** ** Specification *)
(** the share of [c] of [n] objects, for distances its complement *)
Definition share (sim : bool) (n c : nat) : R := if sim then (INR c / INR n)%R else (1 - INR c / INR n)%R.
Definition reads_share (sim : bool) (n c : nat) (x : f64) : Prop :=
  nisfin x = true /\ (Rabs (B2R x - share sim n c) <= bpow radix2 (-52))%R.
(** comparing two values compares the counts *)
Definition compares_counts (sim : bool) (x y : f64) (c d : nat) : Prop :=
  (nlt x y = true <-> if sim then c < d else d < c) /\
  (nle x y = true <-> if sim then c <= d else d <= c) /\ (x = y <-> c = d).

Definition float_share (sim : bool) (n c : nat) : f64 :=
  let q := ndiv (nofnat c) (nofnat n) in if sim then q else nsub n1 q.

Lemma share_close sim n c : 0 < n -> c <= n -> (Z.of_nat n <= 2 ^ 50)%Z -> reads_share sim n c (float_share sim n c).
Proof.
  intros Hn Hc Hb. destruct (frac_correct c n Hc Hn ltac:(lia)) as (U & E). pose proof U as (F & S & B).
  assert (Q : (0 <= INR c / INR n <= 1)%R).
  { assert (0 < INR n)%R by (apply (lt_INR 0); lia). pose proof (pos_INR c). apply le_INR in Hc. unfold Rdiv.
    split; [apply Rmult_le_pos; [assumption|left; now apply Rinv_0_lt_compat]|].
    replace 1%R with (INR n * / INR n)%R by (field; lra). apply Rmult_le_compat_r; [left; now apply Rinv_0_lt_compat|exact Hc]. }
  pose proof (rnd_err _ Q) as Er. rewrite <- E in Er. clear E.
  assert (P : (bpow radix2 (-52) = 2 * bpow radix2 (-53))%R) by (cbn; lra). pose proof (bpow_gt_0 radix2 (-53)) as P0.
  unfold reads_share, float_share, share. cbv zeta. set (q := ndiv (V:=f64) (nofnat c) (nofnat n)) in *. destruct sim.
  - split; [exact F|]. apply Rle_trans with (1 := Er). lra.
  - destruct (compl_correct _ U) as ((F1 & _) & E1). split; [exact F1|]. rewrite E1.
    assert (B' : (0 <= 1 - B2R q <= 1)%R) by lra. pose proof (rnd_err _ B') as Er1.
    apply Rabs_le_inv in Er. apply Rabs_le_inv in Er1. apply Rabs_le. lra.
Qed.

Lemma share_order sim n c d : 0 < n -> c <= n -> d <= n -> (Z.of_nat n <= 2 ^ 50)%Z ->
  compares_counts sim (float_share sim n c) (float_share sim n d) c d.
Proof.
  intros Hn Hc Hd Hb. destruct (share_close sim n c Hn Hc Hb) as (Fc & Ec). destruct (share_close sim n d Hn Hd Hb) as (Fd & Ed).
  assert (Pn : (0 < INR n)%R) by (apply (lt_INR 0); lia).
  assert (Hn50 : (INR n <= bpow radix2 50)%R) by (rewrite INR_IZR_INZ; apply IZR_le in Hb; exact Hb).
  assert (I : (bpow radix2 (-50) <= / INR n)%R) by (change (-50)%Z with (- (50))%Z; rewrite bpow_opp; apply Rinv_le; assumption).
  assert (P : (bpow radix2 (-50) = 4 * bpow radix2 (-52))%R) by (cbn; lra). pose proof (bpow_gt_0 radix2 (-52)) as P0.
  assert (G : forall a b : nat, a < b -> (INR a / INR n + / INR n <= INR b / INR n)%R).
  { intros a b H. unfold Rdiv. replace (INR a * / INR n + / INR n)%R with (INR (S a) * / INR n)%R by (rewrite S_INR; lra).
    apply Rmult_le_compat_r; [left; now apply Rinv_0_lt_compat|]. apply le_INR. lia. }
  assert (K : (if sim then c < d else d < c) -> (B2R (float_share sim n c) < B2R (float_share sim n d))%R).
  { unfold share in Ec, Ed. apply Rabs_le_inv in Ec, Ed. destruct sim; intros H; apply G in H; lra. }
  assert (K' : (if sim then d < c else c < d) -> (B2R (float_share sim n d) < B2R (float_share sim n c))%R).
  { unfold share in Ec, Ed. apply Rabs_le_inv in Ec, Ed. destruct sim; intros H; apply G in H; lra. }
  unfold compares_counts. rewrite (nlt_B2R _ _ Fc Fd), (nle_B2R _ _ Fc Fd).
  destruct (Nat.lt_trichotomy c d) as [H|[H|H]].
  - destruct sim; [specialize (K H)|specialize (K' H)]; repeat split; intros; try lia; try lra; try (exfalso; subst; lra); try (apply Rlt_le; assumption);
    match goal with Q : float_share _ _ _ = _ |- _ => rewrite Q in *; lra end.
  - subst d. destruct sim; repeat split; intros; try lia; try lra; reflexivity.
  - destruct sim; [specialize (K' H)|specialize (K H)]; repeat split; intros; try lia; try lra; try (exfalso; subst; lra);
    match goal with Q : float_share _ _ _ = _ |- _ => rewrite Q in *; lra end.
Qed.

(** ** C179 *)
Theorem C179_mp_distance :
  forall (D : arr2 f64), (Z.of_nat (nrow D) <= 2 ^ 50)%Z -> nrow D = ncol D ->
  exists M, mp_empiric_full D "distance" TNone = Ok M /\
    let third i j := farther_from_both D (nrow D) i j (at2 D j i) in
    (forall i j, i < j -> j < nrow D -> reads_share false (nrow D) (third i j) (at2 M i j) /\ at2 M j i = at2 M i j) /\
    (forall i j a b, i < j -> j < nrow D -> a < b -> b < nrow D ->
       compares_counts false (at2 M i j) (at2 M a b) (third i j) (third a b)).
Proof.
  intros D Hb Hsq. destruct (C07_mp_distance_formula D ltac:(lia) Hsq) as (M & HM & _ & _ & _ & A). exists M. split; [exact HM|].
  intros third. split.
  - intros i j Hi Hj. destruct (A i j Hi Hj) as (E & Es). split; [|exact Es]. rewrite E. apply (share_close false); [lia|apply count_if_le|exact Hb].
  - intros i j a b Hi Hj Ha Hb'. destruct (A i j Hi Hj) as (-> & _). destruct (A a b Ha Hb') as (-> & _).
    apply (share_order false); [lia|apply count_if_le|apply count_if_le|exact Hb].
Qed.

Theorem C179_mp_similarity :
  forall (S : arr2 f64), (Z.of_nat (nrow S) <= 2 ^ 50)%Z -> nrow S = ncol S ->
  (forall i j, i < j -> j < nrow S -> nlt (at2 S j i) ninf = true) ->
  exists M, mp_empiric_full S "similarity" TNone = Ok M /\
    let third i j := at_most_similar_to_both S (nrow S) i j (at2 S j i) in
    (forall i j, i < j -> j < nrow S -> reads_share true (nrow S) (third i j) (at2 M i j) /\ at2 M j i = at2 M i j) /\
    (forall i j a b, i < j -> j < nrow S -> a < b -> b < nrow S ->
       compares_counts true (at2 M i j) (at2 M a b) (third i j) (third a b)).
Proof.
  intros D Hb Hsq Hfin. destruct (C07_mp_similarity_formula D ltac:(lia) Hsq) as (M & HM & _ & _ & _ & A). exists M. split; [exact HM|].
  intros third. split.
  - intros i j Hi Hj. destruct (A i j Hi Hj) as (E & Es). split; [|exact Es]. rewrite E by auto. apply (share_close true); [lia|apply count_if_le|exact Hb].
  - intros i j a b Hi Hj Ha Hb'. destruct (A i j Hi Hj) as (E & _). destruct (A a b Ha Hb') as (E' & _). rewrite E, E' by auto.
    apply (share_order true); [lia|apply count_if_le|apply count_if_le|exact Hb].
Qed.

Theorem C179_mp_sample :
  forall (D : arr2 f64) idx (test : option (list nat)),
    (Z.of_nat (ncol D) <= 2 ^ 50)%Z -> ncol D <= nrow D -> length idx = ncol D ->
    (forall s, In s idx -> s < nrow D) ->
    match test with None => True | Some t => forall s, In s t -> s < nrow D end ->
  exists M, mp_empiric_sample D idx "distance" test = Ok M /\
    let object a := match test with None => a | Some t => nth a t 0 end in
    let third a j := count_if (fun x => (negb (nth x idx 0 =? object a) && negb (nth x idx 0 =? nth j idx 0)) &&
        (nlt (at2 D (object a) j) (at2 D (object a) x) && nlt (at2 D (object a) j) (at2 D (nth j idx 0) x))) (ncol D) in
    (forall a j, a < nrow M -> j < ncol D -> nth j idx 0 <> object a -> reads_share false (ncol D) (third a j) (at2 M a j)) /\
    (forall a j b l, a < nrow M -> j < ncol D -> nth j idx 0 <> object a -> b < nrow M -> l < ncol D -> nth l idx 0 <> object b ->
       compares_counts false (at2 M a j) (at2 M b l) (third a j) (third b l)).
Proof.
  intros D idx test Hb Hn Hl Hi Ht. destruct (C11_sample_formula D idx "distance" test Hn Hl eq_refl Hi Ht) as (M & HM & _ & _ & A).
  exists M. split; [exact HM|]. intros object third.
  assert (E : forall a j, a < nrow M -> j < ncol D -> nth j idx 0 <> object a -> at2 M a j = float_share false (ncol D) (third a j)).
  { intros a j Ha Hj Hne. destruct (A a j (object a) Ha Hj eq_refl) as (_ & E & _). exact (E Hne eq_refl). }
  split.
  - intros a j Ha Hj Hne. rewrite E by assumption. apply share_close; [lia|apply count_if_le|exact Hb].
  - intros a j b l Ha Hj Hne Hb' Hl' Hne'. rewrite !E by assumption. apply share_order; [lia|apply count_if_le|apply count_if_le|exact Hb].
Qed.

Theorem C179_shared_neighbours :
  forall (argpart : list f64 -> list nat -> list nat), argpart_ok argpart ->
  forall metric (D : arr2 f64) k,
    valid_metric metric = true -> nrow D = ncol D -> 0 < k < nrow D -> (Z.of_nat k <= 2 ^ 50)%Z ->
    exists M (hood : nat -> list nat),
      snn_serial argpart D (Z.of_nat k) metric = Ok M /\
      (forall i, i < nrow D ->
         kset (fun x y => nearer metric (rank_value metric D i x) (rank_value metric D i y)) (nrow D) k (hood i)) /\
      let common i j := overlap (hood i) (hood j) in
      (forall i j, i < nrow D -> j < nrow D -> i <> j -> reads_share (is_sim metric) k (common i j) (at2 M i j)) /\
      (forall i j a b, i < nrow D -> j < nrow D -> i <> j -> a < nrow D -> b < nrow D -> a <> b ->
         compares_counts (is_sim metric) (at2 M i j) (at2 M a b) (common i j) (common a b)).
Proof.
  intros argpart AP metric D k Hv Hsq Hk Hb.
  destruct (C14_snn_formula argpart AP metric D k Hv Hsq (proj1 Hk) ltac:(lia) (or_introl (proj2 Hk))) as (M & hood & HM & _ & _ & K & _ & A).
  exists M, hood. split; [exact HM|]. split; [intros i Hi; now apply K|]. intros common.
  assert (L : forall i j, i < nrow D -> common i j <= k).
  { intros i j Hi. destruct (K i Hi) as ([Hl _ _ _] & _). rewrite <- Hl. apply overlap_le. }
  assert (E : forall i j, i < nrow D -> j < nrow D -> i <> j -> at2 M i j = float_share (is_sim metric) k (common i j)).
  { intros i j Hi Hj Hne. destruct (A i j Hi Hj Hne) as (E1 & E2 & _).
    unfold valid_metric in Hv. apply orb_true_iff in Hv. destruct Hv as [Hv|Hv]; apply String.eqb_eq in Hv; subst metric; [rewrite E1|rewrite E2]; reflexivity. }
  split.
  - intros i j Hi Hj Hne. rewrite E by assumption. apply share_close; [lia|now apply L|exact Hb].
  - intros i j a b Hi Hj Hne Ha Hb' Hne'. rewrite !E by assumption. apply share_order; [lia|now apply L|now apply L|exact Hb].
Qed.

(** snn_sample; the cells treated as self distances (C16) are left out *)
Theorem C179_shared_neighbours_sample :
  forall (argsort : list f64 -> list nat), argsort_ok argsort ->
  forall metric (D : arr2 f64) k train (test : option (list nat)),
    ncol D <= nrow D -> length train = ncol D -> valid_metric metric = true ->
    (forall s, In s train -> s < nrow D) ->
    match test with None => True | Some t => forall s, In s t -> s < nrow D end ->
    0 < k <= ncol D -> (Z.of_nat k <= 2 ^ 50)%Z ->
    exists M (hood : nat -> list nat),
      snn_sample argsort D (Z.of_nat k) metric train test = Ok M /\
      (forall i, i < nrow D ->
         kset (fun x y => nearer metric (rank_value_s metric D train i x) (rank_value_s metric D train i y)) (ncol D) k (hood i)) /\
      let object a := match test with None => a | Some t => nth a t 0 end in
      let self a j := match test with None => a = j | Some t => nth j train 0 = nth a t 0 end in
      let common a j := overlap (hood (object a)) (hood (nth j train 0)) in
      (forall a j, a < nrow M -> j < ncol D -> ~ self a j -> reads_share (is_sim metric) k (common a j) (at2 M a j)) /\
      (forall a j b l, a < nrow M -> j < ncol D -> ~ self a j -> b < nrow M -> l < ncol D -> ~ self b l ->
         compares_counts (is_sim metric) (at2 M a j) (at2 M b l) (common a j) (common b l)).
Proof.
  intros argsort AS metric D k train test Hn Hl Hv Ht Hte Hk Hb.
  destruct (snn_sample_spec f64_cmp argsort AS D k metric train test Hn Hl Hv Ht Hte (proj2 Hk)) as (M & hood & HM & _ & K & R & _ & A).
  exists M, hood. split; [exact HM|]. split; [exact K|]. intros object self common.
  assert (E : forall a j, a < nrow M -> j < ncol D -> ~ self a j -> at2 M a j = float_share (is_sim metric) k (common a j)).
  { intros a j Ha Hj Hne. rewrite A by assumption. unfold self, common, object in *.
    destruct test as [t|].
    - destruct (Nat.eqb_spec (nth j train 0) (nth a t 0)); [contradiction|]. reflexivity.
    - destruct (Nat.eqb_spec a j); [contradiction|]. reflexivity. }
  assert (L : forall a j, a < nrow M -> common a j <= k).
  { intros a j Ha. assert (Ho : object a < nrow D).
    { unfold object. destruct test as [t|]; [apply Hte, nth_In; lia|lia]. }
    destruct (K _ Ho) as [Hlen _ _ _]. unfold common. rewrite <- Hlen. apply overlap_le. }
  split.
  - intros a j Ha Hj Hne. rewrite E by assumption. apply share_close; [lia|now apply L|exact Hb].
  - intros a j b l Ha Hj Hne Hb' Hl' Hne'. rewrite !E by assumption. apply share_order; [lia|now apply L|now apply L|exact Hb].
Qed.

(** four objects on a line, the objects 1 and 3 as sample, two neighbours *)
Example C179_case_sample :
  let D := Arr2 4 2 (fun i j => nofZ (Z.abs (Z.of_nat i - nth j [1; 3]%Z 0%Z))) : arr2 f64 in
  ncol D <= nrow D /\ length [1; 3] = ncol D /\ (forall s, In s [1; 3] -> s < nrow D) /\ 0 < 1 <= ncol D /\
  exists M, snn_sample ref_argsort D 1 "distance" [1; 3] (Some [0; 2]) = Ok M /\ neq (at2 M 0 0) n0 = false.
Proof.
  cbv zeta. split; [cbn; lia|]. split; [reflexivity|]. split; [cbn; intuition lia|]. split; [cbn; lia|].
  eexists. split; [reflexivity|vm_compute; reflexivity].
Qed.

(** ** The hypotheses can be met: four objects on a line; the objects 0 and 1 are
    closer (one object is farther from both) than 0 and 2 (none is) *)
Definition line4 : arr2 f64 := Arr2 4 4 (fun i j => nofZ (Z.abs (Z.of_nat i - Z.of_nat j))).
Example C179_case :
  (Z.of_nat (nrow line4) <= 2 ^ 50)%Z /\ nrow line4 = ncol line4 /\
  farther_from_both line4 4 0 2 (at2 line4 2 0) = 0 /\ farther_from_both line4 4 0 1 (at2 line4 1 0) = 1 /\
  (forall i j, i < j -> j < nrow line4 -> nlt (at2 line4 j i) ninf = true).
Proof.
  split; [vm_compute; discriminate|]. split; [reflexivity|]. split; [vm_compute; reflexivity|]. split; [vm_compute; reflexivity|].
  intros i j Hi Hj. cbn [nrow line4] in Hj. destruct i as [|[|[|i]]], j as [|[|[|[|j]]]]; try lia; vm_compute; reflexivity.
Qed.

Print Assumptions C179_mp_distance.
Print Assumptions C179_mp_similarity.
Print Assumptions C179_mp_sample.
Print Assumptions C179_shared_neighbours.
Print Assumptions C179_shared_neighbours_sample.
