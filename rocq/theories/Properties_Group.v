(** Property C198: an isolated group of objects is processed as if it were alone. *)
From Coq Require Import String.
From Coq Require Import ZArith List Arith Lia Bool Permutation Reals Lra.
From Flocq Require Import BinarySingleNaN.
From Verif Require Import Py Num NumT Arr Sort Conc S_Neighbors S_LS S_SNN S_Relabel M_IO M_Hubness M_LS M_SNN.
From Verif Require Import P_Neighbors P_F64 P_Hubness P_HubnessMain P_SNN P_LS P_LS2 P_LS3 P_Relabel P_Relabel2.
From Verif Require Import Properties_Hubness Properties_LS Properties_SNN Properties_CountAcc Properties_Remote Properties_Dup Properties_Separated Properties_Closer Properties_LargerK.
Import ListNotations.
Local Open Scope nat_scope.

(** ** Specification *)
(** [D] is the matrix of some of the objects of [U], in the same order: its object [i] is
    object [f i] of [U] *)
Definition part_of {V} (D U : arr2 V) (f : nat -> nat) : Prop :=
  nrow D = ncol D /\ nrow U = ncol U /\
  (forall i j, i < j -> j < nrow D -> f i < f j) /\ (forall i, i < nrow D -> f i < nrow U) /\
  (forall i j, i < nrow D -> j < nrow D -> at2 U (f i) (f j) = at2 D i j).
Definition outsider {V} (D : arr2 V) (f : nat -> nat) (y : nat) : Prop := forall j, j < nrow D -> f j <> y.
(** the members of the group are nearer to each other than to anyone else *)
Definition isolated {V} {N : Num V} (metric : string) (D U : arr2 V) (f : nat -> nat) : Prop :=
  forall i j y, i < nrow D -> j < nrow D -> i <> j -> y < nrow U -> outsider D f y ->
    nearer metric (at2 D i j) (at2 U (f i) y) = true.

Lemma part_inj {V} (D U : arr2 V) f : part_of D U f -> forall i j, i < nrow D -> j < nrow D -> f i = f j -> i = j.
Proof.
  intros (_ & _ & Mo & _) i j Hi Hj E. destruct (Nat.lt_trichotomy i j) as [C|[C|C]]; [|assumption|].
  - specialize (Mo i j C Hj). lia.
  - specialize (Mo j i C Hi). lia.
Qed.
Lemma part_le {V} (D U : arr2 V) f : part_of D U f -> nrow D <= nrow U.
Proof.
  intros P. pose proof P as (_ & _ & _ & Rg & _).
  rewrite <- (seq_length (nrow D) 0), <- (seq_length (nrow U) 0), <- (map_length f). apply NoDup_incl_length.
    - apply (NoDup_nth _ 0). rewrite map_length, seq_length. intros a b Ha Hb. rewrite !(nth_indep (map f _) 0 (f 0)) by (rewrite map_length, seq_length; assumption). rewrite !map_nth, !seq_nth by assumption.
      cbn [plus]. now apply (part_inj D U f P).
    - intros y Hy. apply in_map_iff in Hy as (a & <- & Ha). apply in_seq in Ha. apply in_seq. specialize (Rg a ltac:(lia)). lia.
Qed.
Lemma filter_id {A} (p : A -> bool) l : (forall x, In x l -> p x = true) -> filter p l = l.
Proof. induction l as [|x l IH]; intros H; [reflexivity|]. cbn [filter]. rewrite H by now left. f_equal. apply IH. intros y Hy. apply H. now right. Qed.
Lemma in_or_out {V} (D : arr2 V) f y : (exists j, j < nrow D /\ f j = y) \/ outsider D f y.
Proof.
  destruct (existsb (fun j => f j =? y) (seq 0 (nrow D))) eqn:E.
  - left. apply existsb_exists in E as (j & Hj & E). apply in_seq in Hj. apply Nat.eqb_eq in E. exists j. split; [lia|exact E].
  - right. intros j Hj Ej. assert (existsb (fun j => f j =? y) (seq 0 (nrow D)) = true); [|congruence].
    apply existsb_exists. exists j. split; [apply in_seq; lia|now apply Nat.eqb_eq].
Qed.
Lemma fin_before_worst metric (v : f64) : nisfin v = true -> nearer metric v (worst metric) = true.
Proof.
  intros H. unfold nearer, worst. destruct (is_sim metric); [|now apply (fin_lt_inf f64_cmp)].
  rewrite (cl_fin _ _ _ f64_cmp) in H. rewrite (cl_lt _ _ _ f64_cmp), (cl_ninf _ _ _ f64_cmp). destruct (f2x v); try discriminate. reflexivity.
Qed.

Definition rankm metric (D : arr2 f64) i x y : bool := nearer metric (rank_value metric D i x) (rank_value metric D i y).

Section Member.
  Variables (metric : string) (D U : arr2 f64) (f : nat -> nat) (k i : nat).
  Hypothesis P : part_of D U f.
  Hypothesis Is : isolated metric D U f.
  Hypothesis Fd : all_finite D.
  Hypothesis Hi : i < nrow D.
  Hypothesis Hk : k < nrow D.

  Lemma rank_member x : x < nrow D -> rank_value metric U (f i) (f x) = rank_value metric D i x.
  Proof.
    intros Hx. pose proof P as (_ & _ & _ & _ & E). unfold rank_value. destruct (Nat.eqb_spec x i) as [->|Hne]; [now rewrite Nat.eqb_refl|].
    rewrite (proj2 (Nat.eqb_neq (f x) (f i))); [now apply E|]. intros H. apply Hne. now apply (part_inj D U f P).
  Qed.
  Lemma rankm_member x y : x < nrow D -> y < nrow D -> rankm metric U (f i) (f x) (f y) = rankm metric D i x y.
  Proof. intros Hx Hy. unfold rankm. now rewrite !rank_member. Qed.
  Lemma member_first x y : x < nrow D -> x <> i -> y < nrow U -> outsider D f y \/ y = f i -> rankm metric U (f i) (f x) y = true.
  Proof.
    intros Hx Hxi Hy Ho. unfold rankm. rewrite rank_member by assumption. unfold rank_value. rewrite (proj2 (Nat.eqb_neq x i)) by assumption.
    destruct Ho as [Ho| ->]; [|rewrite Nat.eqb_refl; apply fin_before_worst, Fd; auto].
    rewrite (proj2 (Nat.eqb_neq y (f i))) by (apply not_eq_sym, Ho, Hi). apply Is; auto.
  Qed.

  Lemma rankm_trans (A : arr2 f64) a x y z : rankm metric A a x y = true -> rankm metric A a y z = true -> rankm metric A a x z = true.
  Proof. apply nearer_trans. Qed.

  (** a set of nearest objects does not contain the object itself *)
  Lemma kset_self l : kset (rankm metric D i) (nrow D) k l -> ~ In i l.
  Proof.
    intros [k1 k2 k3 k4] H.
    assert (Ex : exists x, x < nrow D /\ x <> i /\ ~ In x l).
    { destruct (Forall_Exists_dec (fun x => In x l) (fun x => in_dec Nat.eq_dec x l) (seq 0 (nrow D))) as [F|E].
      - exfalso. rewrite Forall_forall in F. assert (length (seq 0 (nrow D)) <= length l); [|rewrite seq_length in *; lia]. apply NoDup_incl_length; [apply seq_NoDup|exact F].
      - apply Exists_exists in E as (x & Hx & Hn). apply in_seq in Hx. exists x. split; [lia|]. split; [congruence|exact Hn]. }
    destruct Ex as (x & Hx & Hxi & Hn). specialize (k4 x i Hx Hn H). unfold rankm, rank_value in k4. rewrite Nat.eqb_refl, (proj2 (Nat.eqb_neq x i)) in k4 by assumption.
    rewrite fin_before_worst in k4; [discriminate|]. apply Fd; auto.
  Qed.

  Lemma kset_image l : kset (rankm metric D i) (nrow D) k l -> kset (rankm metric U (f i)) (nrow U) k (map f l).
  Proof.
    intros K. pose proof (kset_self l K) as Self. destruct K as [k1 k2 k3 k4]. pose proof P as (_ & _ & _ & Rg & _). constructor.
    - now rewrite map_length.
    - revert k2 k3. clear - P. induction l as [|a l IH]; intros Nd Rn; [constructor|]. inversion Nd; subst. cbn [map]. constructor; [|apply IH; auto; intros x Hx; apply Rn; now right].
      intros H. apply in_map_iff in H as (b & Eb & Hb). apply (part_inj D U f P) in Eb; [subst; contradiction|apply Rn; now right|apply Rn; now left].
    - intros x Hx. apply in_map_iff in Hx as (a & <- & Ha). auto.
    - intros x y Hx Hnx Hy. apply in_map_iff in Hy as (b & <- & Hb). pose proof (k3 b Hb) as Hbn. destruct (in_or_out D f x) as [(a & Ha & <-)|Ho].
      + rewrite rankm_member by assumption. apply k4; auto. intros H. apply Hnx. now apply in_map.
      + assert (Q : rankm metric U (f i) (f b) x = true) by (apply member_first; auto; congruence).
        destruct (rankm metric U (f i) x (f b)) eqn:Q2; [|reflexivity]. pose proof (rankm_trans _ _ _ _ _ Q Q2) as Q3. unfold rankm in Q3. rewrite nearer_irrefl in Q3. discriminate.
  Qed.

  Hypothesis Un : untied D.
  Lemma rankm_total x y : x < nrow D -> y < nrow D -> x <> y -> rankm metric D i x y = true \/ rankm metric D i y x = true.
  Proof. intros Hx Hy Hxy. apply (rank_total f64_cmp metric D (nrow D)); auto. Qed.

  Lemma same_group_set l l' : kset (rankm metric D i) (nrow D) k l -> kset (rankm metric U (f i)) (nrow U) k l' ->
    forall x, In x l' <-> In x (map f l).
  Proof.
    intros K K'. pose proof (kset_self l K) as Self. pose proof (ks_range _ _ _ _ K) as Rl. pose proof (kset_image l K) as [b1 b2 b3 b4]. destruct K' as [a1 a2 a3 a4].
    assert (G : forall x, In x l' -> In x (map f l)).
    { intros x Hx. destruct (in_dec Nat.eq_dec x (map f l)) as [|Hn]; [assumption|exfalso].
      destruct (Forall_Exists_dec (fun y => In y l') (fun y => in_dec Nat.eq_dec y l') (map f l)) as [F|E].
      - rewrite Forall_forall in F. assert (length (x :: map f l) <= length l'); [|cbn [length] in *; lia].
        apply NoDup_incl_length; [now constructor|]. intros y [<-|Hy]; auto.
      - apply Exists_exists in E as (y & Hy & Hny). pose proof (a4 y x (b3 y Hy) Hny Hx) as Q1. pose proof (b4 x y (a3 x Hx) Hn Hy) as Q2.
        apply in_map_iff in Hy as (b & <- & Hb). assert (Hbi : b <> i) by congruence. destruct (Nat.eq_dec x (f i)) as [->|Hxi].
        + rewrite member_first in Q1 by auto. discriminate.
        + destruct (in_or_out D f x) as [(a & Ha & <-)|Ho].
          * rewrite rankm_member in Q1, Q2 by auto. destruct (rankm_total a b Ha (Rl b Hb)) as [T|T]; [|congruence|congruence].
            intros ->. apply Hn. now apply in_map.
          * rewrite member_first in Q1 by auto. discriminate. }
    intros x. split; [apply G|]. intros Hx. revert x Hx. apply (NoDup_length_incl a2); [lia|exact G].
  Qed.

  Lemma same_group_list l l' : knn_list (rankm metric D i) (nrow D) k l -> knn_list (rankm metric U (f i)) (nrow U) k l' -> l' = map f l.
  Proof.
    intros [l1 l2 l3 l4 l5] K'.
    assert (K : kset (rankm metric D i) (nrow D) k l) by (now constructor). pose proof (kset_image l K) as [b1 b2 b3 b4].
    apply (knn_list_unique (rankm metric U (f i)) (nrow U) k _ _ (fun x => existsb (fun j => (f j =? x) && negb (j =? i)) (seq 0 (nrow D)))).
    - exact K'.
    - constructor; [exact b1|exact b2|exact b3| |exact b4]. intros a b Ha Hb.
      rewrite !(nth_indep (map f l) 0 (f 0)) by (rewrite map_length; lia). rewrite !map_nth. rewrite rankm_member by (apply l3, nth_In; lia). now apply l4.
    - intros x y z _ _ _. apply rankm_trans.
    - intros x _. apply nearer_irrefl.
    - intros x y Hx Hy Ux Uy. apply existsb_exists in Ux as (a & Ha & Ux). apply in_seq in Ha. apply andb_prop in Ux as (Ea & Na). apply Nat.eqb_eq in Ea. apply negb_true_iff, Nat.eqb_neq in Na. subst x.
      apply member_first; [lia|exact Na|exact Hy|]. destruct (in_or_out D f y) as [(b & Hb & <-)|Ho]; [|now left]. right. destruct (Nat.eq_dec b i) as [->|Hbi]; [reflexivity|exfalso].
      assert (Q : existsb (fun j => (f j =? f b) && negb (j =? i)) (seq 0 (nrow D)) = true); [|congruence].
      apply existsb_exists. exists b. split; [apply in_seq; lia|]. rewrite Nat.eqb_refl, (proj2 (Nat.eqb_neq b i)) by assumption. reflexivity.
    - intros x y Hx Hy Hxy Ux Uy. apply existsb_exists in Ux as (a & Ha & Ux). apply existsb_exists in Uy as (b & Hb & Uy). apply in_seq in Ha, Hb.
      apply andb_prop in Ux as (Ea & _). apply andb_prop in Uy as (Eb & _). apply Nat.eqb_eq in Ea, Eb. subst x y. rewrite !rankm_member by lia. apply rankm_total; [lia|lia|congruence].
    - unfold count_if. assert (Le : length (map f (filter (fun j => negb (j =? i)) (seq 0 (nrow D)))) <=
        length (filter (fun x => existsb (fun j => (f j =? x) && negb (j =? i)) (seq 0 (nrow D))) (seq 0 (nrow U)))).
      { apply NoDup_incl_length.
        - assert (G : forall s, NoDup s -> (forall x, In x s -> x < nrow D) -> NoDup (map f s)).
          { induction s as [|a s IH]; intros Nd Rn; [constructor|]. inversion Nd; subst. cbn [map]. constructor; [|apply IH; auto; intros x Hx; apply Rn; now right].
            intros H. apply in_map_iff in H as (b & Eb & Hb). apply (part_inj D U f P) in Eb; [subst; contradiction|apply Rn; now right|apply Rn; now left]. }
          apply G; [apply NoDup_filter, seq_NoDup|]. intros x Hx. apply filter_In in Hx as (Hx & _). apply in_seq in Hx. lia.
        - intros y Hy. apply in_map_iff in Hy as (a & <- & Ha). apply filter_In in Ha as (Ha & Na). pose proof P as (_ & _ & _ & Rg & _). apply filter_In. split.
          + apply in_seq. apply in_seq in Ha. specialize (Rg a ltac:(lia)). lia.
          + apply existsb_exists. exists a. split; [exact Ha|]. rewrite Nat.eqb_refl. exact Na. }
      rewrite map_length in Le. enough (length (filter (fun j => negb (j =? i)) (seq 0 (nrow D))) = nrow D - 1) by lia.
      pose proof (seq_length (nrow D) 0) as L0. assert (NI : In i (seq 0 (nrow D))) by (apply in_seq; lia).
      apply in_split in NI as (s1 & s2 & El). pose proof (seq_NoDup (nrow D) 0) as Nd. rewrite El in *. rewrite app_length in L0. cbn [length] in L0.
      apply NoDup_remove_2 in Nd. rewrite in_app_iff in Nd. rewrite filter_app. cbn [filter]. rewrite Nat.eqb_refl. cbn [negb]. rewrite app_length.
      assert (G : forall s, ~ In i s -> filter (fun x => negb (x =? i)) s = s).
      { induction s as [|x s IH]; intros H; [reflexivity|]. cbn [filter]. cbn [In] in H. rewrite (proj2 (Nat.eqb_neq x i)) by tauto. cbn [negb]. f_equal. apply IH. tauto. }
      rewrite !G by tauto. lia.
  Qed.
End Member.

(** ** Hubness *)
Theorem C198_hubness :
  forall (argpart argpart' : list f64 -> list nat -> list nat), argpart_ok argpart -> argpart_ok argpart' ->
  forall sparse sparse' (D U : arr2 f64) f (k : nat) metric se se' rps rps',
    valid_metric metric = true -> part_of D U f -> isolated metric D U f -> all_finite U -> untied D -> k < nrow D ->
    (forall i, i < nrow D -> Permutation (rps i) (seq 0 (ncol D))) ->
    (forall i, i < nrow U -> Permutation (rps' i) (seq 0 (ncol U))) ->
    exists o o', hubness_serial argpart sparse D (Z.of_nat k) metric se rps = Ok o /\
      hubness_serial argpart' sparse' U (Z.of_nat k) metric se' rps' = Ok o' /\
      forall i, i < nrow D -> nth (f i) (out_Dk o') [] = map f (nth i (out_Dk o) []).
Proof.
  intros argpart argpart' AP AP' sparse sparse' D U f k metric se se' rps rps' Hv P Is Fu Un Hk Hrp Hrp'. pose proof P as (Sd & Su & Mo & Rg & E).
  assert (Fd : all_finite D). { intros a b Ha Hb Hab. rewrite <- E by assumption. apply Fu; auto. intros H. apply Hab. now apply (part_inj D U f P). }
  pose proof (part_le D U f P) as Hle.
  destruct (C02_serial_neighbours_are_nearest argpart AP sparse D k metric se rps Hv) as (o & Ho & _ & _ & K); [lia|now left|assumption|].
  destruct (C02_serial_neighbours_are_nearest argpart' AP' sparse' U k metric se' rps' Hv) as (o' & Ho' & _ & _ & K'); [lia|now left|assumption|].
  exists o, o'. split; [exact Ho|]. split; [exact Ho'|]. intros i Hi.
  assert (Cv : forall (A : arr2 f64) a l, nrow A = ncol A -> all_finite A -> a < nrow A -> k < nrow A ->
    knn_list (fun x y => nearer metric (eff metric A a x) (eff metric A a y)) (ncol A) (Nat.min k (ncol A - 1)) l -> knn_list (rankm metric A a) (nrow A) k l).
  { intros A a l Sq Fa Ha Hka. rewrite <- Sq, Nat.min_l by lia. intros [l1 l2 l3 l4 l5]. constructor; [exact l1|exact l2|exact l3| |].
    - intros x y Hx Hy. unfold rankm. rewrite <- !eff_rank by (auto; apply l3, nth_In; lia). now apply l4.
    - intros x y Hx Hn Hy. unfold rankm. rewrite <- !eff_rank by auto. now apply l5. }
  apply (same_group_list metric D U f k i P Is Fd Hi Hk Un); [apply Cv; auto|]. specialize (Rg i Hi). apply Cv; auto. lia.
Qed.

(** ** Shared neighbours *)
Lemma overlap_image (f : nat -> nat) a b a' b' : (forall x y, In x a -> In y b -> f x = f y -> x = y) -> Permutation a' (map f a) ->
  (forall x, In x b' <-> In x (map f b)) -> overlap a' b' = overlap a b.
Proof.
  intros Inj Pa Hb. unfold overlap. rewrite (filter_length_perm _ _ _ Pa). clear Pa a'. induction a as [|x a IH]; [reflexivity|]. cbn [map filter].
  assert (Q : existsb (Nat.eqb (f x)) b' = existsb (Nat.eqb x) b).
  { apply eq_true_iff_eq. rewrite !existsb_exists. split; intros (y & Hy & Ey); apply Nat.eqb_eq in Ey.
    - subst y. apply Hb, in_map_iff in Hy as (z & Ez & Hz). exists z. split; [exact Hz|]. apply Nat.eqb_eq. apply Inj; auto. now left.
    - subst y. exists (f x). split; [apply Hb; now apply in_map|apply Nat.eqb_refl]. }
  rewrite Q. specialize (IH (fun y z Hy Hz => Inj y z (or_intror Hy) Hz)). destruct (existsb (Nat.eqb x) b); cbn [length]; congruence.
Qed.

Theorem C198_shared_neighbours :
  forall (argpart argpart' : list f64 -> list nat -> list nat), argpart_ok argpart -> argpart_ok argpart' ->
  forall (D U : arr2 f64) f k metric,
    valid_metric metric = true -> part_of D U f -> isolated metric D U f -> all_finite D -> untied D -> 0 < k < nrow D -> (Z.of_nat k <= 2 ^ 53)%Z ->
    exists M M', snn_serial argpart D (Z.of_nat k) metric = Ok M /\ snn_serial argpart' U (Z.of_nat k) metric = Ok M' /\
      forall i j, i < nrow D -> j < nrow D -> at2 M' (f i) (f j) = at2 M i j.
Proof.
  intros argpart argpart' AP AP' D U f k metric Hv P Is Fd Un Hk Hb. pose proof P as (Sd & Su & Mo & Rg & E). pose proof (part_le D U f P) as Hle.
  destruct (C14_snn_formula argpart AP metric D k Hv Sd ltac:(lia) Hb ltac:(left; lia)) as (M & hood & HM & _ & _ & K & Dg & A).
  destruct (C14_snn_formula argpart' AP' metric U k Hv Su ltac:(lia) Hb ltac:(left; lia)) as (M' & hood' & HM' & _ & _ & K' & Dg' & A').
  exists M, M'. split; [exact HM|]. split; [exact HM'|]. intros i j Hi Hj.
  destruct (Nat.eq_dec i j) as [->|Hne]; [rewrite Dg, Dg' by auto; reflexivity|].
  assert (Hfne : f i <> f j) by (intros H; apply Hne; now apply (part_inj D U f P)).
  assert (S : forall a, a < nrow D -> forall x, In x (hood' (f a)) <-> In x (map f (hood a))).
  { intros a Ha. apply (same_group_set metric D U f k a P Is Fd Ha (proj2 Hk) Un); [apply (K a Ha)|apply (K' (f a) (Rg a Ha))]. }
  assert (O : overlap (hood' (f i)) (hood' (f j)) = overlap (hood i) (hood j)).
  { apply (overlap_image f); [|apply NoDup_Permutation|now apply S].
    - intros x y Hx Hy. apply (part_inj D U f P); [apply (ks_range _ _ _ _ (proj1 (K i Hi)) x Hx)|apply (ks_range _ _ _ _ (proj1 (K j Hj)) y Hy)].
    - apply (K' (f i) (Rg i Hi)).
    - apply (kset_image metric D U f k i P Is Fd Hi (proj2 Hk)). apply (K i Hi).
    - now apply S. }
  destruct (A i j Hi Hj Hne) as (Ad & As & _). destruct (A' (f i) (f j) (Rg i Hi) (Rg j Hj) Hfne) as (Ad' & As' & _). rewrite O in Ad', As'.
  unfold valid_metric in Hv. apply orb_true_iff in Hv.
  destruct (String.eqb_spec metric "distance") as [->|]; [now rewrite Ad, Ad'|].
  destruct (String.eqb_spec metric "similarity") as [->|]; [now rewrite As, As'|].
  exfalso. unfold is_dist, is_sim in Hv. rewrite !String.eqb_eq in Hv. tauto.
Qed.

(** ** Local scaling, ties allowed *)
Theorem C198_local_scaling :
  forall part part' (D U : arr2 xr) f (k : nat) cpu cpu' n_jobs n_jobs' L L',
    part_ok part -> part_ok part' -> part_of D U f -> isolated "distance" D U f -> all_finite U -> 0 < k < nrow D ->
    (1 <= workers cpu n_jobs)%Z -> (1 <= workers cpu' n_jobs')%Z ->
    local_scaling xexp part D (Z.of_nat k) "distance" None cpu n_jobs (Ok L) ->
    local_scaling xexp part' U (Z.of_nat k) "distance" None cpu' n_jobs' (Ok L') ->
    forall i j, i < nrow D -> j < nrow D -> at2 L' (f i) (f j) = at2 L i j.
Proof.
  intros part part' D U f k cpu cpu' nj nj' L L' PO PO' P Is Fu Hk Hw Hw' HL HL'. pose proof P as (Sd & Su & Mo & Rg & E). set (n := nrow D) in *. set (N := nrow U) in *.
  assert (Fd : all_finite D). { intros a b Ha Hb Hab. rewrite <- E by assumption. apply Fu; auto. intros H. apply Hab. now apply (part_inj D U f P). }
  set (outs := filter (fun y => negb (existsb (fun j => f j =? y) (seq 0 n))) (seq 0 N)).
  assert (Ho : forall y, In y outs <-> y < N /\ outsider D f y).
  { intros y. unfold outs. rewrite filter_In, in_seq, negb_true_iff. fold n. split; intros (H1 & H2); (split; [lia|]).
    - intros j Hj Ej. fold n in Hj. assert (Q : existsb (fun j => f j =? y) (seq 0 n) = true); [|congruence]. apply existsb_exists. exists j. split; [apply in_seq; lia|now apply Nat.eqb_eq].
    - destruct (existsb _ _) eqn:Q; [|reflexivity]. apply existsb_exists in Q as (j & Hj & Ej). apply in_seq in Hj. apply Nat.eqb_eq in Ej. exfalso. apply (H2 j); [fold n; lia|exact Ej]. }
  assert (Nm : NoDup (map f (seq 0 n))).
  { apply (NoDup_nth _ 0). rewrite map_length, seq_length. intros a b Ha Hb. rewrite !(nth_indep (map f _) 0 (f 0)) by (rewrite map_length, seq_length; assumption). rewrite !map_nth, !seq_nth by assumption.
    cbn [plus]. now apply (part_inj D U f P). }
  assert (Ps : Permutation (seq 0 N) (map f (seq 0 n) ++ outs)).
  { apply NoDup_Permutation; [apply seq_NoDup| |].
    - assert (G : forall s, NoDup s -> (forall y, In y s -> ~ In y outs) -> NoDup (s ++ outs)).
      { induction s as [|a s IH]; intros Nd H; [apply NoDup_filter, seq_NoDup|]. inversion Nd; subst. cbn [app]. constructor; [|apply IH; auto; intros y Hy; apply H; now right].
        rewrite in_app_iff. intros [Q|Q]; [contradiction|]. apply (H a); [now left|exact Q]. }
      apply G; [exact Nm|]. intros y Hy Hy'. apply in_map_iff in Hy as (a & Ea & Ha). apply in_seq in Ha. apply Ho in Hy' as (_ & Hy'). apply (Hy' a); [fold n; lia|exact Ea].
    - intros y. rewrite in_app_iff, in_seq, Ho, in_map_iff. split.
      + intros Hy. destruct (in_or_out D f y) as [(a & Ha & Ea)|Hout]; [left; exists a; split; [exact Ea|apply in_seq; fold n in Ha; lia]|right; split; [lia|exact Hout]].
      + intros [(a & Ea & Ha)|(Hy & _)]; [|lia]. apply in_seq in Ha. specialize (Rg a ltac:(lia)). lia. }
  assert (Hle : n <= N). { apply Permutation_length in Ps. rewrite app_length, map_length, !seq_length in Ps. lia. }
  destruct (ls_radii_dist xr_cmp part D k None PO Sd Fd) as (rs & Er & K); [cbn [training]; rewrite seq_length; fold n; lia|].
  destruct (ls_radii_dist xr_cmp part' U k None PO' Su Fu) as (rs' & Er' & K'); [cbn [training]; rewrite seq_length; fold N; lia|].
  apply ls_outcome in HL; [|exact Hw]. rewrite Er in HL. destruct HL as (L0 & E0 & _ & _ & A). injection E0 as <-.
  apply ls_outcome in HL'; [|exact Hw']. rewrite Er' in HL'. destruct HL' as (L0 & E0 & _ & _ & A'). injection E0 as <-.
  fold n in A, K. fold N in A', K'. cbn [training] in K, K'.
  assert (Rr : forall a, a < n -> nth (f a) rs' nnan = nth a rs nnan).
  { intros a Ha. apply (kth_smallest_unique (S_LS.others U (seq 0 N) (f a)) k); [apply K'; now apply Rg|].
    assert (Po : Permutation (S_LS.others U (seq 0 N) (f a)) (S_LS.others D (seq 0 n) a ++ map (at2 U (f a)) outs)).
    { unfold S_LS.others. eapply Permutation_trans; [apply Permutation_map, filter_perm, Ps|]. rewrite filter_app, map_app. apply Permutation_app.
      - assert (G : forall s, (forall x, In x s -> x < n) -> map (at2 U (f a)) (filter (fun j => negb (j =? f a)) (map f s)) = map (at2 D a) (filter (fun j => negb (j =? a)) s)).
        { induction s as [|x s IH]; intros Hs; [reflexivity|]. assert (Hx := Hs x (or_introl eq_refl)). specialize (IH (fun y Hy => Hs y (or_intror Hy))). cbn [map filter].
          destruct (Nat.eqb_spec x a) as [->|Hxa]; [rewrite Nat.eqb_refl; exact IH|]. rewrite (proj2 (Nat.eqb_neq (f x) (f a))) by (intros H; apply Hxa; now apply (part_inj D U f P)).
          cbn [negb map]. rewrite IH. f_equal. now apply E. }
        rewrite <- G; [apply Permutation_refl|]. intros x Hx. apply in_seq in Hx. lia.
      - rewrite filter_id; [apply Permutation_refl|]. intros y Hy. apply Ho in Hy as (_ & Hy). apply negb_true_iff, Nat.eqb_neq. apply not_eq_sym, Hy, Ha. }
    destruct (K a Ha) as (Kin & Kc). set (v := nth a rs nnan) in *.
    assert (Hv : forall y, In y outs -> nlt (at2 U (f a) y) v = false).
    { intros y Hy. apply Ho in Hy as (Hy & Hout). unfold S_LS.others in Kin. apply in_map_iff in Kin as (x & Ex & Hx). apply filter_In in Hx as (Hx & Hne). apply in_seq in Hx. apply negb_true_iff, Nat.eqb_neq in Hne.
      pose proof (Is a x y Ha ltac:(fold n; lia) ltac:(congruence) Hy Hout) as Q. rewrite Ex in Q. exact (nlt_asym xr_cmp _ _ Q). }
    split; [apply (Permutation_in _ (Permutation_sym Po)), in_app_iff; now left|]. rewrite !(filter_length_perm _ _ _ Po), !filter_app, !app_length.
    assert (Z : filter (fun x => nlt x v) (map (at2 U (f a)) outs) = []).
    { clear - Hv. induction outs as [|y s IH]; [reflexivity|]. cbn [map filter]. rewrite (Hv y) by now left. apply IH. intros z Hz. apply Hv. now right. }
    rewrite Z. cbn [length]. lia. }
  intros i j Hi Hj. destruct (A i j Hi Hj) as (A1 & A2). destruct (A' (f i) (f j) (Rg i Hi) (Rg j Hj)) as (A1' & A2').
  destruct (Nat.eq_dec i j) as [Eij|Hne]; [rewrite A1 by assumption; apply A1'; congruence|].
  assert (Hfne : f i <> f j) by (intros H; apply Hne; now apply (part_inj D U f P)).
  rewrite (maybe0_xr _ _ (A2 Hne)), (maybe0_xr _ _ (A2' Hfne)). unfold ls_cell.
  destruct (Nat.lt_ge_cases i j) as [C|C].
  - pose proof (Mo i j C Hj). rewrite !Nat.min_l, !Nat.max_r by lia. now rewrite !Rr, E by lia.
  - pose proof (Mo j i ltac:(lia) Hi). rewrite !Nat.min_r, !Nat.max_l by lia. now rewrite !Rr, E by lia.
Qed.

(** ** The hypotheses can be met: the second of two groups on a line *)
Example C198_case : let U := line_at [0; 1; 3; 100; 101; 104]%Z in let D := line_at [100; 101; 104]%Z in
  part_of D U (fun i => 3 + i) /\ isolated "distance" D U (fun i => 3 + i) /\ all_finite U /\ all_finite D /\ untied D /\ 0 < 2 < nrow D.
Proof.
  cbv zeta. split; [|split; [|split; [|split; [|split]]]].
  - split; [reflexivity|]. split; [reflexivity|]. cbn [line_at nrow length]. split; [intros; lia|]. split; [intros; lia|]. intros i j Hi Hj.
    destruct i as [|[|[|i]]], j as [|[|[|j]]]; try lia; reflexivity.
  - intros i j y Hi Hj Hne Hy Ho. cbn [line_at nrow length] in *. assert (Hy3 : y < 3). { destruct (Nat.lt_ge_cases y 3) as [|C]; [assumption|]. exfalso. apply (Ho (y - 3)); cbn [line_at nrow length]; lia. }
    clear Ho Hy. destruct i as [|[|[|i]]], j as [|[|[|j]]], y as [|[|[|y]]]; try lia; vm_compute; reflexivity.
  - intros i j Hi Hj Hne. cbn [line_at nrow length] in *. destruct i as [|[|[|[|[|[|i]]]]]], j as [|[|[|[|[|[|j]]]]]]; try lia; vm_compute; reflexivity.
  - intros i j Hi Hj Hne. cbn [line_at nrow length] in *. destruct i as [|[|[|i]]], j as [|[|[|j]]]; try lia; vm_compute; reflexivity.
  - intros i x y Hi Hx Hy H1 H2 H3. cbn [line_at nrow length] in *. destruct i as [|[|[|i]]], x as [|[|[|x]]], y as [|[|[|y]]]; try lia; vm_compute; reflexivity.
  - cbn [line_at nrow length]. lia.
Qed.
Example C198_case_exact : part_of exX4 exX4' (fun i => i) /\ isolated "distance" exX4 exX4' (fun i => i) /\ all_finite exX4' /\ 0 < 2 < nrow exX4 /\
  (1 <= workers 4 2)%Z /\ exists L L', local_scaling xexp ref_part exX4 2 "distance" None 4 2 (Ok L) /\
  local_scaling xexp ref_part exX4' 2 "distance" None 4 2 (Ok L').
Proof.
  destruct C192_case_exact as ((E1 & E2 & E3 & E4) & H2 & H3 & H4 & H5 & H6). split; [|split; [|auto]].
  - split; [exact E1|]. split; [reflexivity|]. split; [auto|]. split; [intros; lia|exact E4].
  - intros i j y Hi Hj Hne Hy Ho. assert (Ey : y = nrow exX4). { destruct (Nat.lt_ge_cases y (nrow exX4)) as [C|C]; [exfalso; now apply (Ho y C)|lia]. } subst y. now apply H2.
Qed.

Print Assumptions C198_hubness.
Print Assumptions C198_shared_neighbours.
Print Assumptions C198_local_scaling.
