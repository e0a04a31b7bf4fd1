(** Property C192: a new object that is farther from every object than all others leaves
    the neighbourhoods and secondary distances of the others as they were. *)
From Coq Require Import String.
From Coq Require Import ZArith List Arith Lia Bool Permutation Reals Lra.
From Flocq Require Import BinarySingleNaN.
From Verif Require Import Py Num NumT Arr Sort Conc S_Neighbors S_MP S_LS S_SNN S_Relabel M_IO M_Hubness M_MPEmpiric M_LS M_SNN.
From Verif Require Import P_Neighbors P_F64 P_Hubness P_HubnessMain P_MPEmpiric P_MPEmpiric2 P_SNN P_LS P_LS2 P_LS3 P_Relabel P_Relabel2.
From Verif Require Import Properties_Hubness Properties_MP Properties_LS Properties_SNN Properties_CountAcc.
Import ListNotations.
Local Open Scope nat_scope.

(** ** Specification *)
(** [D'] is the distance matrix [D] with one more object *)
Definition extends {V} (D' D : arr2 V) : Prop :=
  nrow D = ncol D /\ nrow D' = S (nrow D) /\ ncol D' = S (nrow D) /\
  forall i j, i < nrow D -> j < nrow D -> at2 D' i j = at2 D i j.
(** everyone is farther from the new object than from everyone else *)
Definition remote {V} {N : Num V} (D' D : arr2 V) : Prop :=
  forall i j, i < nrow D -> j < nrow D -> i <> j -> nlt (at2 D i j) (at2 D' i (nrow D)) = true.
Definition all_finite {V} {N : Num V} (D : arr2 V) : Prop :=
  forall i j, i < nrow D -> j < nrow D -> i <> j -> nisfin (at2 D i j) = true.
Definition untied {V} {N : Num V} (D : arr2 V) : Prop :=
  forall i x y, i < nrow D -> x < nrow D -> y < nrow D -> x <> y -> x <> i -> y <> i -> neq (at2 D i x) (at2 D i y) = false.

(** ** Hubness *)
Lemma nlt_asym {V} {N : Num V} {toX} (CL : CmpLaws V N toX) (a b : V) : nlt a b = true -> nlt b a = false.
Proof. intros H. destruct (nlt b a) eqn:Q; [|reflexivity]. pose proof (nlt_trans CL _ _ _ Q H) as Q2. rewrite (nlt_irrefl CL) in Q2. discriminate. Qed.
Lemma usable_sq (D : arr2 f64) i j : nrow D = ncol D -> usable "distance" D i j = nisfin (at2 D i j) && negb (j =? i).
Proof. intros H. unfold usable. rewrite H, Nat.eqb_refl. reflexivity. Qed.

Lemma count_others (D : arr2 f64) i : nrow D = ncol D -> all_finite D -> i < nrow D ->
  count_if (usable "distance" D i) (nrow D) = nrow D - 1.
Proof.
  intros Hsq Hf Hi. unfold count_if.
  rewrite (filter_ext_in _ (fun x => negb (x =? i))).
  2:{ intros x Hx. apply in_seq in Hx. rewrite usable_sq by exact Hsq. destruct (Nat.eqb_spec x i); [apply andb_false_r|]. rewrite Hf; auto; lia. }
  assert (G : forall m, i < m -> length (filter (fun x => negb (x =? i)) (seq 0 m)) = m - 1).
  { intros m Hm. replace m with (i + (1 + (m - i - 1))) at 1 by lia. rewrite seq_app, filter_app, app_length. cbn [plus seq filter]. rewrite Nat.eqb_refl. cbn [negb].
    assert (F : forall s l, (forall x, In x (seq s l) -> x <> i) -> length (filter (fun x => negb (x =? i)) (seq s l)) = l).
    { intros s l. revert s. induction l as [|l IH]; intros s H; [reflexivity|]. cbn [seq filter]. destruct (Nat.eqb_spec s i) as [E|E]; [exfalso; apply (H s); [now left|exact E]|].
      cbn [negb length]. f_equal. apply IH. intros x Hx. apply H. now right. }
    rewrite !F; [lia| |]; intros x Hx; apply in_seq in Hx; lia. }
  now apply G.
Qed.

Theorem C192_hubness :
  forall (argpart argpart' : list f64 -> list nat -> list nat), argpart_ok argpart -> argpart_ok argpart' ->
  forall sparse sparse' (D D' : arr2 f64) (k : nat) se se' rps rps',
    extends D' D -> remote D' D -> all_finite D' -> untied D -> 0 < k < nrow D ->
    (forall i, i < nrow D -> Permutation (rps i) (seq 0 (ncol D))) ->
    (forall i, i < nrow D' -> Permutation (rps' i) (seq 0 (ncol D'))) ->
    exists o o', hubness_serial argpart sparse D (Z.of_nat k) "distance" se rps = Ok o /\
      hubness_serial argpart' sparse' D' (Z.of_nat k) "distance" se' rps' = Ok o' /\
      (** the others keep their neighbours, nearest first *)
      (forall i, i < nrow D -> nth i (out_Dk o') [] = nth i (out_Dk o) []) /\
      (** the new object is an antihub; its own neighbours gain one occurrence *)
      nth (nrow D) (out_Nk o') 0 = 0 /\
      (forall x, x < nrow D -> nth x (out_Nk o') 0 =
         nth x (out_Nk o) 0 + if in_dec Nat.eq_dec x (nth (nrow D) (out_Dk o') []) then 1 else 0).
Proof.
  intros argpart argpart' AP AP' sparse sparse' D D' k se se' rps rps' (Hsq & R' & C' & E) Rm Ff Un Hk Hrp Hrp'.
  set (n := nrow D) in *.
  assert (Ff0 : all_finite D) by (intros i j Hi Hj Hne; rewrite <- E by assumption; apply Ff; fold n in Hi, Hj; lia).
  destruct (C02_serial_neighbours_are_nearest argpart AP sparse D k "distance" se rps eq_refl) as (o & Ho & L & Nk & K); [lia|now left|now rewrite <- Hsq in *|].
  destruct (C02_serial_neighbours_are_nearest argpart' AP' sparse' D' k "distance" se' rps' eq_refl) as (o' & Ho' & L' & Nk' & K'); [lia|left; lia|assumption|].
  exists o, o'. split; [exact Ho|]. split; [exact Ho'|]. fold n in K, L. rewrite <- Hsq in K, Nk. rewrite R' in K', L'. rewrite C' in K', Nk'.
  rewrite Nat.min_l in K by lia. rewrite Nat.min_l in K' by lia.
  assert (Sq' : nrow D' = ncol D') by lia.
  assert (Us : forall i j, i < n -> j < n -> usable "distance" D' i j = usable "distance" D i j).
  { intros i j Hi Hj. rewrite !usable_sq by assumption. now rewrite E by assumption. }
  assert (Ef : forall i j, i < n -> j < n -> eff "distance" D' i j = eff "distance" D i j).
  { intros i j Hi Hj. unfold eff. rewrite Us by assumption. destruct (usable _ _ _ _); [now apply E|reflexivity]. }
  assert (Better : forall (A : arr2 f64) i x y, usable "distance" A i x = true -> usable "distance" A i y = false ->
     nearer "distance" (eff "distance" A i x) (eff "distance" A i y) = true).
  { intros A i x y Hx Hy. unfold eff. rewrite Hx, Hy. unfold nearer, worst. cbn. apply (fin_lt_inf f64_cmp). unfold usable in Hx. now apply andb_prop in Hx as (Hx & _). }
  assert (Uo : forall i y, i < n -> In y (nth i (out_Dk o) []) -> usable "distance" D i y = true).
  { intros i y Hi Hy. apply (knn_list_usable _ _ _ _ (usable "distance" D i) (K i Hi)); [intros; now apply Better| |exact Hy].
    unfold n in *. rewrite count_others by assumption. lia. }
  assert (Uo' : forall i y, i < S n -> In y (nth i (out_Dk o') []) -> usable "distance" D' i y = true).
  { intros i y Hi Hy. apply (knn_list_usable _ _ _ _ (usable "distance" D' i) (K' i Hi)); [intros; now apply Better| |exact Hy].
    rewrite <- R'. rewrite count_others by (assumption || lia). lia. }
  assert (Tr : forall (A : arr2 f64) i x y z, nearer "distance" (eff "distance" A i x) (eff "distance" A i y) = true ->
     nearer "distance" (eff "distance" A i y) (eff "distance" A i z) = true -> nearer "distance" (eff "distance" A i x) (eff "distance" A i z) = true).
  { intros A i x y z. unfold nearer. cbn. apply (nlt_trans f64_cmp). }
  assert (Eq : forall i, i < n -> nth i (out_Dk o') [] = nth i (out_Dk o) []).
  { intros i Hi. pose proof (K i Hi) as [l1 l2 l3 l4 l5].
    apply (knn_list_unique (fun x y => nearer "distance" (eff "distance" D' i x) (eff "distance" D' i y)) (S n) k _ _ (usable "distance" D' i)).
    - apply K'. lia.
    - constructor; [exact l1|exact l2|intros y Hy; specialize (l3 y Hy); lia| |].
      + intros a b Ha Hb. rewrite !Ef; auto; apply l3, nth_In; lia.
      + intros x y Hx Hnx Hy. assert (Hyn := l3 y Hy). destruct (Nat.eq_dec x n) as [->|Hxn].
        * rewrite (Ef i y) by assumption. pose proof (Uo i y Hi Hy) as Uy. unfold eff. rewrite Uy.
          rewrite usable_sq in Uy by assumption. apply andb_prop in Uy as (_ & Uy). apply negb_true_iff, Nat.eqb_neq in Uy.
          pose proof (Rm i y Hi Hyn ltac:(congruence)) as Rn. fold n in Rn. unfold nearer. cbn.
          rewrite usable_sq by assumption. rewrite Ff by lia. replace (n =? i) with false by (symmetry; apply Nat.eqb_neq; lia). cbn [negb andb].
          exact (nlt_asym f64_cmp _ _ Rn).
        * rewrite !Ef by (assumption || lia). apply l5; auto. lia.
    - intros. eapply Tr; eauto.
    - intros x _. unfold nearer. cbn. apply (nlt_irrefl f64_cmp).
    - intros x y _ _ Hx Hy. now apply Better.
    - intros x y Hx Hy Hne Ux Uy.
      assert (NX : x <> i /\ y <> i). { rewrite usable_sq in Ux, Uy by assumption. apply andb_prop in Ux as (_ & Ux). apply andb_prop in Uy as (_ & Uy). apply negb_true_iff, Nat.eqb_neq in Ux, Uy. auto. }
      unfold eff. rewrite Ux, Uy. unfold nearer. cbn.
      destruct (Nat.eq_dec x n) as [->|Hxn]; [right; rewrite (E i y) by lia; apply Rm; lia|].
      destruct (Nat.eq_dec y n) as [->|Hyn]; [left; rewrite (E i x) by lia; apply Rm; lia|].
      rewrite !E by lia.
      destruct (rank_total f64_cmp "distance" D n i x y) as [T|T]; [intros a b Ha Hb Hab; apply Ff0; auto|exact Un|lia|lia|lia|exact Hne| |].
      + unfold rank_value, nearer in T. cbn in T. rewrite !(proj2 (Nat.eqb_neq _ _)) in T by (apply NX). now left.
      + unfold rank_value, nearer in T. cbn in T. rewrite !(proj2 (Nat.eqb_neq _ _)) in T by (apply NX). now right.
    - rewrite <- R'. rewrite count_others by (assumption || lia). lia. }
  assert (Sp : out_Dk o' = (out_Dk o ++ [nth n (out_Dk o') []])%list).
  { apply (nth_ext _ _ [] []); [rewrite app_length; cbn [length]; lia|]. intros i Hi. rewrite L' in Hi. destruct (Nat.eq_dec i n) as [->|Hin].
    - rewrite app_nth2 by lia. rewrite L, Nat.sub_diag. reflexivity.
    - rewrite app_nth1 by lia. apply Eq. lia. }
  assert (In_o : forall x, In x (concat (out_Dk o)) -> x < n).
  { intros x Hx. apply in_concat in Hx as (l & Hl & Hx). apply (In_nth _ _ []) in Hl as (i & Hi & <-). apply (knn_range _ _ _ _ (K i ltac:(lia)) x Hx). }
  assert (In_o' : forall x, In x (concat (out_Dk o')) -> x < S n).
  { intros x Hx. apply in_concat in Hx as (l & Hl & Hx). apply (In_nth _ _ []) in Hl as (i & Hi & <-). apply (knn_range _ _ _ _ (K' i ltac:(lia)) x Hx). }
  assert (Cc : forall x, count_occ Nat.eq_dec (concat (out_Dk o')) x = count_occ Nat.eq_dec (concat (out_Dk o)) x + count_occ Nat.eq_dec (nth n (out_Dk o') []) x).
  { intros x. rewrite Sp at 1. rewrite concat_app. cbn [concat]. rewrite app_nil_r. apply count_occ_app. }
  split; [exact Eq|]. split.
  - rewrite Nk', bincount_nth by (assumption || lia). rewrite Cc.
    assert (Z1 : count_occ Nat.eq_dec (concat (out_Dk o)) n = 0) by (apply count_occ_not_In; intros Hx; apply In_o in Hx; lia).
    assert (Z2 : count_occ Nat.eq_dec (nth n (out_Dk o') []) n = 0).
    { apply count_occ_not_In. intros Hx. apply Uo' in Hx; [|lia]. rewrite usable_sq in Hx by assumption. rewrite Nat.eqb_refl, andb_false_r in Hx. discriminate. }
    lia.
  - intros x Hx. rewrite Nk, Nk', !bincount_nth by (assumption || lia). rewrite Cc. f_equal.
    pose proof (knn_nodup _ _ _ _ (K' n ltac:(lia))) as ND. destruct (in_dec Nat.eq_dec x (nth n (out_Dk o') [])) as [I|I].
    + now apply NoDup_count_occ' .
    + now apply count_occ_not_In.
Qed.

(** ** Empiric Mutual Proximity: the new object counts as a third object for every pair,
    so the numbers change but not their order *)
Theorem C192_mutual_proximity :
  forall (D D' : arr2 f64), extends D' D -> remote D' D -> symmetric D -> (Z.of_nat (nrow D') <= 2 ^ 50)%Z ->
  exists M M', mp_empiric_full D "distance" TNone = Ok M /\ mp_empiric_full D' "distance" TNone = Ok M' /\
    (forall i j, i < j -> j < nrow D ->
       let c := farther_from_both D (nrow D) i j (at2 D j i) in
       at2 M i j = nsub n1 (ndiv (nofnat c) (nofnat (nrow D))) /\
       at2 M' i j = nsub n1 (ndiv (nofnat (S c)) (nofnat (S (nrow D))))) /\
    (forall i j a b, i < j -> j < nrow D -> a < b -> b < nrow D ->
       nlt (at2 M' i j) (at2 M' a b) = nlt (at2 M i j) (at2 M a b) /\
       (at2 M' i j = at2 M' a b <-> at2 M i j = at2 M a b)).
Proof.
  intros D D' (Hsq & R' & C' & E) Rm (_ & Sy) Hb. set (n := nrow D) in *.
  destruct (C07_mp_distance_formula D ltac:(lia) Hsq) as (M & HM & _ & _ & _ & A).
  destruct (C07_mp_distance_formula D' ltac:(lia) ltac:(lia)) as (M' & HM' & _ & _ & _ & A').
  exists M, M'. split; [exact HM|]. split; [exact HM'|]. fold n in A. rewrite R' in A'.
  assert (Cn : forall i j, i < j -> j < n -> farther_from_both D' (S n) i j (at2 D' j i) = S (farther_from_both D n i j (at2 D j i))).
  { intros i j Hi Hj. unfold farther_from_both, count_if. rewrite seq_S, filter_app, app_length. cbn [filter plus].
    replace (n =? i) with false by (symmetry; apply Nat.eqb_neq; lia). replace (n =? j) with false by (symmetry; apply Nat.eqb_neq; lia). cbn [negb andb].
    pose proof (Rm j i ltac:(lia) ltac:(lia) ltac:(lia)) as Q1. pose proof (Rm i j ltac:(lia) ltac:(lia) ltac:(lia)) as Q2. fold n in Q1, Q2.
    rewrite (Sy i j) in Q2 by (fold n; lia). rewrite (E j i) by lia. rewrite Q1, Q2. cbn [andb length].
    rewrite Nat.add_1_r. f_equal. f_equal. apply filter_ext_in. intros x Hx. apply in_seq in Hx. now rewrite !E by lia. }
  assert (F : forall i j, i < j -> j < n -> at2 M i j = float_share false n (farther_from_both D n i j (at2 D j i)) /\
      at2 M' i j = float_share false (S n) (S (farther_from_both D n i j (at2 D j i)))).
  { intros i j Hi Hj. rewrite (proj1 (A i j Hi Hj)), (proj1 (A' i j Hi ltac:(lia))), Cn by assumption. split; reflexivity. }
  split; [intros i j Hi Hj; exact (F i j Hi Hj)|].
  intros i j a b Hi Hj Ha Hb'. destruct (F i j Hi Hj) as (-> & ->). destruct (F a b Ha Hb') as (-> & ->).
  set (c := farther_from_both D n i j (at2 D j i)). set (d := farther_from_both D n a b (at2 D b a)).
  assert (Hc : c <= n) by apply count_if_le. assert (Hd : d <= n) by apply count_if_le.
  destruct (share_order false n c d ltac:(lia) Hc Hd ltac:(lia)) as (O1 & _ & O2).
  destruct (share_order false (S n) (S c) (S d) ltac:(lia) ltac:(lia) ltac:(lia) ltac:(lia)) as (P1 & _ & P2).
  split; [|rewrite O2, P2; lia]. apply eq_true_iff_eq. rewrite O1, P1. lia.
Qed.

(** ** Local scaling: the numbers themselves stay, with the exact functions *)
Theorem C192_local_scaling :
  forall part part' (D D' : arr2 xr) (k : nat) cpu cpu' n_jobs n_jobs' L L',
    part_ok part -> part_ok part' -> extends D' D -> remote D' D -> all_finite D' ->
    0 < k < nrow D -> (1 <= workers cpu n_jobs)%Z -> (1 <= workers cpu' n_jobs')%Z ->
    local_scaling xexp part D (Z.of_nat k) "distance" None cpu n_jobs (Ok L) ->
    local_scaling xexp part' D' (Z.of_nat k) "distance" None cpu' n_jobs' (Ok L') ->
    forall i j, i < nrow D -> j < nrow D -> at2 L' i j = at2 L i j.
Proof.
  intros part part' D D' k cpu cpu' nj nj' L L' PO PO' (Hsq & R' & C' & E) Rm Ff Hk Hw Hw' HL HL'. set (n := nrow D) in *.
  assert (Ff0 : all_finite D) by (intros i j Hi Hj Hne; rewrite <- E by assumption; apply Ff; fold n in Hi, Hj; lia).
  destruct (ls_radii_dist xr_cmp part D k None PO Hsq Ff0) as (rs & Er & K); [cbn [training]; rewrite seq_length; fold n; lia|].
  destruct (ls_radii_dist xr_cmp part' D' k None PO' ltac:(lia) Ff) as (rs' & Er' & K'); [cbn [training]; rewrite seq_length; lia|].
  apply ls_outcome in HL; [|exact Hw]. rewrite Er in HL. destruct HL as (L0 & E0 & _ & _ & A). injection E0 as <-.
  apply ls_outcome in HL'; [|exact Hw']. rewrite Er' in HL'. destruct HL' as (L0 & E0 & _ & _ & A'). injection E0 as <-.
  fold n in A, K. rewrite R' in A', K'. cbn [training] in K, K'.
  assert (Rr : forall a, a < n -> nth a rs' nnan = nth a rs nnan).
  { intros a Ha. apply (kth_smallest_unique (S_LS.others D' (seq 0 (S n)) a) k); [apply K'; lia|].
    assert (Eo : S_LS.others D' (seq 0 (S n)) a = (S_LS.others D (seq 0 n) a ++ [at2 D' a n])%list).
    { unfold S_LS.others. rewrite seq_S, filter_app, map_app. cbn [filter plus]. replace (n =? a) with false by (symmetry; apply Nat.eqb_neq; lia). cbn [negb map]. f_equal.
      apply map_ext_in. intros x Hx. apply filter_In in Hx as (Hx & _). apply in_seq in Hx. apply E; lia. }
    rewrite Eo. destruct (K a Ha) as (Kin & Kc). set (v := nth a rs nnan) in *.
    assert (Hv : nlt v (at2 D' a n) = true).
    { unfold S_LS.others in Kin. apply in_map_iff in Kin as (x & <- & Hx). apply filter_In in Hx as (Hx & Hne). apply in_seq in Hx.
      apply negb_true_iff, Nat.eqb_neq in Hne. apply Rm; lia. }
    split; [apply in_app_iff; now left|]. rewrite !filter_app, !app_length. cbn [filter].
    rewrite (nlt_asym xr_cmp _ _ Hv). cbn [length]. lia. }
  intros i j Hi Hj. destruct (A i j Hi Hj) as (A1 & A2). destruct (A' i j ltac:(lia) ltac:(lia)) as (A1' & A2').
  destruct (Nat.eq_dec i j) as [Eij|Hne]; [now rewrite A1, A1' by assumption|].
  rewrite (maybe0_xr _ _ (A2 Hne)), (maybe0_xr _ _ (A2' Hne)). unfold ls_cell. rewrite !Rr by lia. now rewrite E by lia.
Qed.

(** ** Shared neighbours *)
Theorem C192_shared_neighbours :
  forall (argpart argpart' : list f64 -> list nat -> list nat), argpart_ok argpart -> argpart_ok argpart' ->
  forall (D D' : arr2 f64) k,
    extends D' D -> remote D' D -> all_finite D' -> untied D -> 0 < k < nrow D -> (Z.of_nat k <= 2 ^ 53)%Z ->
    exists M M', snn_serial argpart D (Z.of_nat k) "distance" = Ok M /\ snn_serial argpart' D' (Z.of_nat k) "distance" = Ok M' /\
      forall i j, i < nrow D -> j < nrow D -> at2 M' i j = at2 M i j.
Proof.
  intros argpart argpart' AP AP' D D' k (Hsq & R' & C' & E) Rm Ff Un Hk Hb. set (n := nrow D) in *.
  assert (Ff0 : all_finite D) by (intros i j Hi Hj Hne; rewrite <- E by assumption; apply Ff; fold n in Hi, Hj; lia).
  destruct (C14_snn_formula argpart AP "distance" D k eq_refl Hsq (proj1 Hk) Hb ltac:(left; fold n; lia)) as (M & hood & HM & _ & _ & K & Dg & A).
  destruct (C14_snn_formula argpart' AP' "distance" D' k eq_refl ltac:(lia) (proj1 Hk) Hb ltac:(left; lia)) as (M' & hood' & HM' & _ & _ & K' & Dg' & A').
  exists M, M'. split; [exact HM|]. split; [exact HM'|]. fold n in K, Dg, A. rewrite R' in K', Dg', A'.
  assert (Tot : forall i x y, i < n -> x < S n -> y < S n -> x <> y ->
     nearer "distance" (rank_value "distance" D' i x) (rank_value "distance" D' i y) = true \/ nearer "distance" (rank_value "distance" D' i y) (rank_value "distance" D' i x) = true).
  { intros i x y Hi Hx Hy Hxy.
    assert (New : forall z, z < n -> nearer "distance" (rank_value "distance" D' i z) (rank_value "distance" D' i n) = true \/ nearer "distance" (rank_value "distance" D' i n) (rank_value "distance" D' i z) = true).
    { intros z Hz. unfold rank_value, nearer, worst. cbn. replace (n =? i) with false by (symmetry; apply Nat.eqb_neq; lia).
      destruct (Nat.eqb_spec z i) as [Ez|Ez]; [right; apply (fin_lt_inf f64_cmp), Ff; lia|left]. rewrite E by lia. apply Rm; lia. }
    destruct (Nat.eq_dec x n) as [->|Hxn]; [destruct (New y); auto; lia|]. destruct (Nat.eq_dec y n) as [->|Hyn]; [apply New; lia|].
    unfold rank_value. rewrite !E by lia. apply (rank_total f64_cmp "distance" D n i x y); try lia; [intros a b Ha Hb' Hab; apply Ff0; auto|exact Un]. }
  assert (Hs : forall i, i < n -> forall x, In x (hood' i) <-> In x (hood i)).
  { intros i Hi. destruct (K i Hi) as (Ki & Kself). pose proof Ki as [k1 k2 k3 k4].
    assert (Self : ~ In i (hood i)) by (apply Kself; [intros x Hx Hne; apply Ff0; fold n; auto|lia]).
    assert (K2 : kset (fun x y => nearer "distance" (rank_value "distance" D' i x) (rank_value "distance" D' i y)) (S n) k (hood i)).
    { constructor; [exact k1|exact k2|intros y Hy; specialize (k3 y Hy); lia|]. intros x y Hx Hnx Hy. pose proof (k3 y Hy) as Hyn. assert (Hyi : y <> i) by congruence. destruct (Nat.eq_dec x n) as [->|Hxn].
      - unfold rank_value, nearer. cbn. replace (n =? i) with false by (symmetry; apply Nat.eqb_neq; lia). replace (y =? i) with false by (symmetry; now apply Nat.eqb_neq).
        rewrite (E i y) by lia. pose proof (Rm i y Hi Hyn ltac:(congruence)) as Rn. fold n in Rn.
        exact (nlt_asym f64_cmp _ _ Rn).
      - specialize (k4 x y ltac:(lia) Hnx Hy). unfold rank_value in *. now rewrite !E by lia. }
    destruct (K' i ltac:(lia)) as (Ki' & _). intros x. split; intros Hx.
    - apply (kset_unique _ _ _ _ _ (fun x y => Tot i x y Hi) Ki' K2 x Hx).
    - apply (kset_unique _ _ _ _ _ (fun x y => Tot i x y Hi) K2 Ki' x Hx). }
  intros i j Hi Hj. destruct (Nat.eq_dec i j) as [->|Hne]; [now rewrite Dg, Dg' by lia|].
  rewrite (proj1 (A i j Hi Hj Hne) eq_refl), (proj1 (A' i j ltac:(lia) ltac:(lia) Hne) eq_refl). do 3 f_equal.
  apply (overlap_renamed (S n) (fun x => x) (fun x => x)).
  - intros x Hx. auto.
  - apply (K i Hi).
  - apply (K' i ltac:(lia)).
  - intros x Hx. apply (ks_range _ _ _ _ (proj1 (K i Hi))) in Hx. lia.
  - intros x Hx. apply (ks_range _ _ _ _ (proj1 (K' i ltac:(lia)))) in Hx. lia.
  - intros x _. now apply Hs.
  - intros x _. now apply Hs.
Qed.

(** ** The hypotheses can be met: objects at 0, 1, 3 and 7, and a new one at 100 *)
Definition line_at (pos : list Z) : arr2 f64 :=
  Arr2 (length pos) (length pos) (fun i j => nofZ (Z.abs (nth i pos 0 - nth j pos 0)%Z)).
Example C192_case : let D := line_at [0; 1; 3; 7]%Z in let D' := line_at [0; 1; 3; 7; 100]%Z in
  extends D' D /\ remote D' D /\ all_finite D' /\ untied D /\ symmetric D.
Proof.
  cbv zeta. split; [|split; [|split; [|split]]].
  - split; [reflexivity|]. split; [reflexivity|]. split; [reflexivity|]. cbn [line_at nrow length]. intros i j Hi Hj.
    destruct i as [|[|[|[|i]]]], j as [|[|[|[|j]]]]; try lia; reflexivity.
  - intros i j Hi Hj Hne. cbn [line_at nrow length] in *. destruct i as [|[|[|[|i]]]], j as [|[|[|[|j]]]]; try lia; vm_compute; reflexivity.
  - intros i j Hi Hj Hne. cbn [line_at nrow length] in *. destruct i as [|[|[|[|[|i]]]]], j as [|[|[|[|[|j]]]]]; try lia; vm_compute; reflexivity.
  - intros i x y Hi Hx Hy H1 H2 H3. cbn [line_at nrow length] in *. destruct i as [|[|[|[|i]]]], x as [|[|[|[|x]]]], y as [|[|[|[|y]]]]; try lia; vm_compute; reflexivity.
  - split; [reflexivity|]. cbn [line_at nrow length]. intros i j Hi Hj. destruct i as [|[|[|[|i]]]], j as [|[|[|[|j]]]]; try lia; reflexivity.
Qed.

Definition exX4 : arr2 xr := Arr2 3 3 (fun i j => if i =? j then XFin 0 else XFin (INR (i + j))).
Definition exX4' : arr2 xr := Arr2 4 4 (fun i j => if i =? j then XFin 0 else if (i =? 3) || (j =? 3) then XFin 9 else XFin (INR (i + j))).
Example C192_case_exact : extends exX4' exX4 /\ remote exX4' exX4 /\ all_finite exX4' /\ 0 < 2 < nrow exX4 /\
  (1 <= workers 4 2)%Z /\ exists L L', local_scaling xexp ref_part exX4 2 "distance" None 4 2 (Ok L) /\
  local_scaling xexp ref_part exX4' 2 "distance" None 4 2 (Ok L').
Proof.
  assert (F : all_finite exX4 /\ all_finite exX4').
  { split; intros i j Hi Hj Hne; cbn [exX4 exX4' nrow at2] in *; rewrite (proj2 (Nat.eqb_neq _ _) Hne); [reflexivity|]. destruct (_ || _); reflexivity. }
  assert (Run : forall D : arr2 xr, nrow D = ncol D -> all_finite D -> 2 < nrow D -> exists L, local_scaling xexp ref_part D 2 "distance" None 4 2 (Ok L)).
  { intros D Hsq Hf Hn. destruct (C29_some_outcome xexp ref_part D 2 "distance"%string None 4 2) as (res & Hr).
    pose proof Hr as Hr0. apply ls_outcome in Hr; [|vm_compute; discriminate].
    destruct (ls_radii_dist xr_cmp ref_part D 2 None (ref_part_ok xr_cmp) Hsq Hf) as (rs & Er & _); [cbn [training]; rewrite seq_length; lia|].
    change (Z.of_nat 2) with 2%Z in Er. rewrite Er in Hr. destruct Hr as (L & -> & _). now exists L. }
  split; [|split; [|split; [|split; [|split]]]].
  - split; [reflexivity|]. split; [reflexivity|]. split; [reflexivity|]. cbn [exX4 exX4' nrow at2]. intros i j Hi Hj.
    destruct i as [|[|[|i]]], j as [|[|[|j]]]; try lia; reflexivity.
  - intros i j Hi Hj Hne. cbn [exX4 exX4' nrow at2] in *. rewrite (proj2 (Nat.eqb_neq _ _) Hne). cbn [Nat.eqb]. rewrite orb_true_r.
    replace (i =? 3) with false by (symmetry; apply Nat.eqb_neq; lia). change (xlt (XFin (INR (i + j))) (XFin 9) = true). cbn.
    destruct (Rlt_dec (INR (i + j)) 9) as [|H]; [reflexivity|]. exfalso. apply H. assert (G : i + j <= 4) by lia. apply le_INR in G. cbn in G. lra.
  - apply F.
  - cbn. lia.
  - vm_compute. discriminate.
  - destruct (Run exX4 eq_refl (proj1 F) ltac:(cbn; lia)) as (L & HL). destruct (Run exX4' eq_refl (proj2 F) ltac:(cbn; lia)) as (L' & HL'). now exists L, L'.
Qed.

Print Assumptions C192_hubness.
Print Assumptions C192_mutual_proximity.
Print Assumptions C192_local_scaling.
Print Assumptions C192_shared_neighbours.
