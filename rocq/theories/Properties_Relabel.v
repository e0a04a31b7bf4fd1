(** Property C132: renaming the objects renames the secondary distances and keeps
    the Goodman-Kruskal index. *)
From Coq Require Import String.
From Coq Require Import ZArith List Arith Lia Bool Permutation Reals Lra.
From Verif Require Import Py Num NumT Arr Sort Conc S_Neighbors S_MP S_GK S_LS S_SNN S_Relabel M_IO M_Hubness M_MPEmpiric M_GK M_LS M_SNN.
From Verif Require Import P_Neighbors P_Hubness P_MPEmpiric P_MPEmpiric2 P_GK2 P_SNN P_LS P_LS2 P_LS3 P_NICDM P_ID P_Skew P_Relabel P_Relabel2.
From Verif Require Import Properties_Hubness Properties_MP Properties_GK Properties_LS Properties_NICDM Properties_SNN Properties_Skew.
Import ListNotations.
Local Open Scope nat_scope.

(** ** C132 (1): empiric Mutual Proximity, double precision *)
Theorem C132_mutual_proximity_renamed :
  forall (D : arr2 f64) p q metric,
    symmetric D -> renaming (nrow D) p q -> (Z.of_nat (nrow D) <= 2 ^ 53)%Z -> valid_metric metric = true ->
    (is_sim metric = true -> forall i j, i < nrow D -> j < nrow D -> i <> j -> nlt (at2 D i j) ninf = true) ->
    exists M M', mp_empiric_full D metric TNone = Ok M /\ mp_empiric_full (renamed p D) metric TNone = Ok M' /\
      forall i j, i < nrow D -> j < nrow D -> at2 M' i j = at2 M (p i) (p j).
Proof.
  intros D p q metric HS H Hb Hv Hfin. pose proof HS as (Hsq & Sy).
  assert (Sw : forall P : nat -> nat -> Prop, (forall i j, P j i -> P i j) -> (forall i j, i < j -> j < nrow D -> P i j) ->
    forall i j, i < nrow D -> j < nrow D -> i <> j -> P i j).
  { intros P P1 P2 i j Hi Hj Hne. destruct (Nat.lt_total i j) as [L|[L|L]]; [now apply P2|lia|]. apply P1. now apply P2. }
  destruct (valid_metric_cases _ Hv) as [(Em & _) | (Em & _)]; subst metric.
  - destruct (C07_mp_distance_formula D Hb Hsq) as (M & E & R & C & Dg & A).
    destruct (C07_mp_distance_formula (renamed p D) Hb Hsq) as (M' & E' & R' & C' & Dg' & A').
    exists M, M'. split; [exact E|]. split; [exact E'|]. cbn [renamed nrow at2] in *.
    assert (V : forall i j, i < nrow D -> j < nrow D -> i <> j -> at2 M i j =
       nsub n1 (ndiv (nofnat (farther_from_both D (nrow D) i j (at2 D i j))) (nofnat (nrow D)))).
    { intros i j Hi Hj Hne. destruct (Nat.lt_total i j) as [L|[L|L]]; [|lia|].
      - rewrite (proj1 (A i j L Hj)). now rewrite (Sy j i).
      - rewrite (proj2 (A j i L Hi)), (proj1 (A j i L Hi)). now rewrite farther_swap. }
    assert (V' : forall i j, i < nrow D -> j < nrow D -> i <> j -> at2 M' i j =
       nsub n1 (ndiv (nofnat (farther_from_both (renamed p D) (nrow D) i j (at2 D (p i) (p j)))) (nofnat (nrow D)))).
    { intros i j Hi Hj Hne. destruct (H i Hi) as (Pi & _). destruct (H j Hj) as (Pj & _). destruct (Nat.lt_total i j) as [L|[L|L]]; [|lia|].
      - rewrite (proj1 (A' i j L Hj)). now rewrite (Sy (p j) (p i)).
      - rewrite (proj2 (A' j i L Hi)), (proj1 (A' j i L Hi)). now rewrite farther_swap. }
    intros i j Hi Hj. destruct (H i Hi) as (Pi & _). destruct (H j Hj) as (Pj & _).
    destruct (Nat.eq_dec i j) as [->|Hne]; [now rewrite Dg, Dg'|].
    rewrite V', V; auto; [|intros E2; apply Hne; now apply (renaming_inj (nrow D) p q)].
    now rewrite (farther_renamed D (nrow D) p q).
  - destruct (C07_mp_similarity_formula D Hb Hsq) as (M & E & R & C & Dg & A).
    destruct (C07_mp_similarity_formula (renamed p D) Hb Hsq) as (M' & E' & R' & C' & Dg' & A').
    exists M, M'. split; [exact E|]. split; [exact E'|]. cbn [renamed nrow at2] in *. specialize (Hfin eq_refl).
    assert (V : forall i j, i < nrow D -> j < nrow D -> i <> j -> at2 M i j =
       ndiv (nofnat (at_most_similar_to_both D (nrow D) i j (at2 D i j))) (nofnat (nrow D))).
    { intros i j Hi Hj Hne. destruct (Nat.lt_total i j) as [L|[L|L]]; [|lia|].
      - rewrite (proj1 (A i j L Hj)) by (apply Hfin; lia). now rewrite (Sy j i).
      - rewrite (proj2 (A j i L Hi)), (proj1 (A j i L Hi)) by (apply Hfin; lia). now rewrite similar_swap. }
    assert (Inj : forall i j, i < nrow D -> j < nrow D -> i <> j -> p i <> p j).
    { intros i j Hi Hj Hne E2. apply Hne. now apply (renaming_inj (nrow D) p q). }
    assert (V' : forall i j, i < nrow D -> j < nrow D -> i <> j -> at2 M' i j =
       ndiv (nofnat (at_most_similar_to_both (renamed p D) (nrow D) i j (at2 D (p i) (p j)))) (nofnat (nrow D))).
    { intros i j Hi Hj Hne. destruct (H i Hi) as (Pi & _). destruct (H j Hj) as (Pj & _). destruct (Nat.lt_total i j) as [L|[L|L]]; [|lia|].
      - rewrite (proj1 (A' i j L Hj)) by (apply Hfin; auto). now rewrite (Sy (p j) (p i)).
      - rewrite (proj2 (A' j i L Hi)), (proj1 (A' j i L Hi)) by (apply Hfin; auto). now rewrite similar_swap. }
    intros i j Hi Hj. destruct (H i Hi) as (Pi & _). destruct (H j Hj) as (Pj & _).
    destruct (Nat.eq_dec i j) as [->|Hne]; [now rewrite Dg, Dg'|].
    rewrite V', V by auto. now rewrite (similar_renamed D (nrow D) p q).
Qed.

(** ** C132 (2): local scaling, exact arithmetic *)
Theorem C132_local_scaling_renamed :
  forall part part' (D : arr2 xr) p q (k : nat) cpu cpu' n_jobs n_jobs' L L',
    part_ok part -> part_ok part' -> symmetric D -> renaming (nrow D) p q ->
    (forall i j, i < nrow D -> j < nrow D -> i <> j -> nisfin (at2 D i j) = true) ->
    0 < k < nrow D -> (1 <= workers cpu n_jobs)%Z -> (1 <= workers cpu' n_jobs')%Z ->
    local_scaling xexp part D (Z.of_nat k) "distance" None cpu n_jobs (Ok L) ->
    local_scaling xexp part' (renamed p D) (Z.of_nat k) "distance" None cpu' n_jobs' (Ok L') ->
    forall i j, i < nrow D -> j < nrow D -> at2 L' i j = at2 L (p i) (p j).
Proof.
  intros part part' D p q k cpu cpu' nj nj' L L' PO PO' (Hsq & Sy) H Hf Hk Hw Hw' HL HL' i j Hi Hj.
  assert (Inj : forall i j, i < nrow D -> j < nrow D -> i <> j -> p i <> p j).
  { intros a b Ha Hb Hne E2. apply Hne. now apply (renaming_inj (nrow D) p q). }
  assert (Pr : forall a, a < nrow D -> p a < nrow D) by (intros; now apply H).
  destruct (ls_radii_dist xr_cmp part D k None PO Hsq Hf) as (rs & E & K); [cbn [training]; now rewrite seq_length|].
  destruct (ls_radii_dist xr_cmp part' (renamed p D) k None PO' Hsq) as (rs' & E' & K').
  { cbn [renamed nrow at2]. intros a b Ha Hb Hne. apply Hf; auto. }
  { cbn [training renamed nrow]. now rewrite seq_length. }
  apply ls_outcome in HL; [|exact Hw]. rewrite E in HL. destruct HL as (L0 & E0 & _ & _ & A). injection E0 as <-.
  apply ls_outcome in HL'; [|exact Hw']. rewrite E' in HL'. destruct HL' as (L0 & E0 & _ & _ & A'). injection E0 as <-.
  cbn [renamed nrow] in A', K'. fold (renamed p D) in *.
  assert (Rr : forall a, a < nrow D -> nth a rs' nnan = nth (p a) rs nnan).
  { intros a Ha. apply (kth_smallest_unique (S_LS.others D (training (nrow D) None) (p a)) k); [|apply K; auto].
    eapply kth_smallest_perm; [apply (others_renamed D (nrow D) p q a H Ha)|]. now apply K'. }
  destruct (A' i j Hi Hj) as (A1' & A2'). destruct (A (p i) (p j)) as (A1 & A2); auto.
  destruct (Nat.eq_dec i j) as [->|Hne]; [now rewrite A1, A1' by reflexivity|].
  rewrite (maybe0_xr _ _ (A2' Hne)), (maybe0_xr _ _ (A2 (Inj i j Hi Hj Hne))).
  assert (G : forall a b, a < nrow D -> b < nrow D ->
     ls_cell xexp "distance" D (fun z => nth z rs nnan) (Nat.min a b) (Nat.max a b) = ls_val xexp "distance" (at2 D a b) (nth a rs nnan) (nth b rs nnan)).
  { intros a b Ha Hb. unfold ls_cell. destruct (Nat.le_ge_cases a b).
    - now rewrite Nat.min_l, Nat.max_r by assumption.
    - rewrite Nat.min_r, Nat.max_l by assumption. rewrite (Sy b a) by assumption. unfold ls_val. now rewrite (xmul_comm (nth b rs nnan)). }
  rewrite G by auto. unfold ls_cell. cbn [renamed at2]. destruct (Nat.le_ge_cases i j).
  - rewrite Nat.min_l, Nat.max_r by assumption. now rewrite !Rr by assumption.
  - rewrite Nat.min_r, Nat.max_l by assumption. rewrite !Rr by assumption. rewrite (Sy (p j) (p i)) by auto. unfold ls_val. now rewrite (xmul_comm (nth (p j) rs nnan)).
Qed.

(** ** C132 (3): NICDM, exact arithmetic *)
Theorem C132_nicdm_renamed :
  forall part part' (D : arr2 xr) p q (k : nat) cpu cpu' n_jobs n_jobs' L L',
    part_ok part -> part_ok part' -> symmetric D -> renaming (nrow D) p q ->
    (forall i j, i < nrow D -> j < nrow D -> i <> j -> nisfin (at2 D i j) = true) ->
    0 < k < nrow D ->
    nicdm xexp xln xsum part D (Z.of_nat k) "distance" None cpu n_jobs (Ok L) ->
    nicdm xexp xln xsum part' (renamed p D) (Z.of_nat k) "distance" None cpu' n_jobs' (Ok L') ->
    forall i j, i < nrow D -> j < nrow D -> at2 L' i j = at2 L (p i) (p j).
Proof.
  intros part part' D p q k cpu cpu' nj nj' L L' PO PO' (Hsq & Sy) H Hf Hk HL HL' i j Hi Hj.
  assert (Inj : forall i j, i < nrow D -> j < nrow D -> i <> j -> p i <> p j).
  { intros a b Ha Hb Hne E2. apply Hne. now apply (renaming_inj (nrow D) p q). }
  assert (Pr : forall a, a < nrow D -> p a < nrow D) by (intros; now apply H).
  assert (Hk' : 0 < k < length (training (nrow D) None)) by (cbn [training]; now rewrite seq_length).
  destruct (nicdm_xr part D (nrow D) k None cpu nj _ PO eq_refl (eq_sym Hsq) Hf Hk' HL) as (L0 & r & E0 & _ & _ & K & A). injection E0 as <-.
  assert (Hf' : forall a b, a < nrow D -> b < nrow D -> a <> b -> nisfin (at2 (renamed p D) a b) = true) by (cbn [renamed at2]; intros a b Ha Hb Hne; apply Hf; auto).
  destruct (nicdm_xr part' (renamed p D) (nrow D) k None cpu' nj' _ PO' eq_refl (eq_sym Hsq) Hf' Hk' HL') as (L0 & r' & E0 & _ & _ & K' & A'). injection E0 as <-.
  assert (Rr : forall a, a < nrow D -> r' a = r (p a)).
  { intros a Ha. destruct (K' a Ha) as (s' & Ks' & ->). destruct (K (p a) (Pr a Ha)) as (s & Ks & ->). f_equal.
    apply (k_smallest_sum (S_LS.others D (training (nrow D) None) (p a)) k); [| |exact Ks].
    - intros x Hx. apply others_in in Hx. destruct Hx as (b & Hb & Hne & ->). apply Hf; auto. 
    - eapply k_smallest_perm; [apply (others_renamed D (nrow D) p q a H Ha)|exact Ks']. }
  assert (Gm : local_geomean xexp xln xsum (map XFin (map r' (seq 0 (nrow D)))) = local_geomean xexp xln xsum (map XFin (map r (seq 0 (nrow D))))).
  { unfold local_geomean. rewrite !map_length. do 2 f_equal. apply xsum_perm. apply Permutation_map, Permutation_map.
    replace (map r' (seq 0 (nrow D))) with (map r (map p (seq 0 (nrow D)))).
    - apply Permutation_map. now apply (renaming_perm (nrow D) p q).
    - rewrite map_map. apply map_ext_in. intros a Ha. apply in_seq in Ha. symmetry. apply Rr. lia. }
  rewrite A', A by auto. rewrite (renaming_eqb (nrow D) p q) by auto. destruct (Nat.eqb_spec i j) as [|Hne]; [reflexivity|].
  rewrite Gm. set (g := local_geomean _ _ _ _).
  assert (G : forall a b, a < nrow D -> b < nrow D ->
     nicdm_val g (XFin (real_at D (Nat.min a b) (Nat.max a b))) (XFin (r (Nat.min a b))) (XFin (r (Nat.max a b))) = nicdm_val g (XFin (real_at D a b)) (XFin (r a)) (XFin (r b))).
  { intros a b Ha Hb. destruct (Nat.le_ge_cases a b).
    - now rewrite Nat.min_l, Nat.max_r by assumption.
    - rewrite Nat.min_r, Nat.max_l by assumption. unfold real_at. rewrite (Sy b a) by assumption. unfold nicdm_val. now rewrite (xmul_comm (XFin (r b))). }
  rewrite G by auto. unfold real_at. cbn [renamed at2]. destruct (Nat.le_ge_cases i j).
  - rewrite Nat.min_l, Nat.max_r by assumption. now rewrite !Rr by assumption.
  - rewrite Nat.min_r, Nat.max_l by assumption. rewrite !Rr by assumption. rewrite (Sy (p j) (p i)) by auto. unfold nicdm_val. now rewrite (xmul_comm (XFin (r (p j)))).
Qed.

(** ** C132 (4): shared nearest neighbours, double precision, without ties *)
Theorem C132_shared_neighbours_renamed :
  forall (argpart argpart' : list f64 -> list nat -> list nat), argpart_ok argpart -> argpart_ok argpart' ->
  forall metric (D : arr2 f64) p q k,
    valid_metric metric = true -> nrow D = ncol D -> 0 < k < nrow D -> (Z.of_nat k <= 2 ^ 53)%Z -> renaming (nrow D) p q ->
    (forall i x, i < nrow D -> x < nrow D -> x <> i -> nisfin (at2 D i x) = true) ->
    (forall i x y, i < nrow D -> x < nrow D -> y < nrow D -> x <> y -> x <> i -> y <> i -> neq (at2 D i x) (at2 D i y) = false) ->
    exists M M', snn_serial argpart D (Z.of_nat k) metric = Ok M /\ snn_serial argpart' (renamed p D) (Z.of_nat k) metric = Ok M' /\
      forall i j, i < nrow D -> j < nrow D -> at2 M' i j = at2 M (p i) (p j).
Proof.
  intros argpart argpart' AP AP' metric D p q k Hv Hsq Hk Hb H Hf Ht.
  assert (Inj : forall i j, i < nrow D -> j < nrow D -> i <> j -> p i <> p j).
  { intros a b Ha Hb' Hne E2. apply Hne. now apply (renaming_inj (nrow D) p q). }
  assert (Pr : forall a, a < nrow D -> p a < nrow D) by (intros; now apply H).
  destruct (snn_formula argpart AP metric D k Hv Hsq (proj1 Hk) Hb (or_introl (proj2 Hk))) as (M & hood & HM & R & C & K & Dg & A).
  destruct (snn_formula argpart' AP' metric (renamed p D) k Hv Hsq (proj1 Hk) Hb (or_introl (proj2 Hk))) as (M' & hood' & HM' & R' & C' & K' & Dg' & A').
  cbn [renamed nrow] in K', Dg', A'. fold (renamed p D) in *.
  exists M, M'. split; [exact HM|]. split; [exact HM'|]. intros i j Hi Hj.
  destruct (Nat.eq_dec i j) as [->|Hne]; [now rewrite Dg, Dg' by auto|].
  rewrite (proj1 (A' i j Hi Hj Hne)), (proj1 (A (p i) (p j) (Pr i Hi) (Pr j Hj) (Inj i j Hi Hj Hne))). f_equal.
  assert (T : forall a x y, a < nrow D -> x < nrow D -> y < nrow D -> x <> y ->
     nearer metric (rank_value metric D a x) (rank_value metric D a y) = true \/ nearer metric (rank_value metric D a y) (rank_value metric D a x) = true).
  { intros a x y Ha Hx Hy Hxy. apply (rank_total f64_cmp metric D (nrow D)); auto. }
  assert (S : forall a, a < nrow D -> forall x, x < nrow D -> In x (hood' a) <-> In (p x) (hood (p a))).
  { intros a Ha x Hx.
    assert (K2 : kset (fun x y => nearer metric (rank_value metric D (p a) x) (rank_value metric D (p a) y)) (nrow D) k (map p (hood' a))).
    { apply (kset_renamed _ (nrow D) k p q _ H). destruct (K' a Ha) as [k1 k2 k3 k4]. constructor; auto.
      intros u w Hu Hnu Hw. specialize (k4 u w Hu Hnu Hw). unfold rank_value in *. rewrite !(renaming_eqb (nrow D) p q) by auto. exact k4. }
    split.
    - intros Hin. apply (kset_unique _ _ _ _ _ (fun x y => T (p a) x y (Pr a Ha)) K2 (K (p a) (Pr a Ha))). now apply in_map. 
    - intros Hin. apply (kset_unique _ _ _ _ _ (fun x y => T (p a) x y (Pr a Ha)) (K (p a) (Pr a Ha)) K2) in Hin. apply in_map_iff in Hin as (y & E & Hy).
      apply (renaming_inj (nrow D) p q) in E; [now subst|exact H| |exact Hx]. now apply (ks_range _ _ _ _ (K' a Ha)). }
  apply (overlap_renamed (nrow D) p q); try assumption.
  - apply (K (p i)); auto.
  - apply (K' i); auto.
  - apply (K (p i)); auto.
  - apply (K' i); auto.
  - now apply S.
  - now apply S.
Qed.

(** ** C132 (5): the Goodman-Kruskal index, double precision *)
Theorem C132_goodman_kruskal_renamed :
  forall argsort sort argsort' sort', stable_ok argsort -> sort_ok sort -> stable_ok argsort' -> sort_ok sort' ->
  forall (D : arr2 f64) (lab lab' : list Z) metric p q,
    symmetric D -> renaming (nrow D) p q -> length lab = nrow D -> length lab' = nrow D -> valid_metric metric = true ->
    (forall i j, i < nrow D -> j < nrow D -> i <> j -> nisnan (at2 D i j) = false) ->
    (forall i, i < nrow D -> nth i lab' 0%Z = nth (p i) lab 0%Z) ->
    (Z.of_nat (n_smaller D lab + n_larger D lab) <= 2 ^ 53)%Z ->
    goodman_kruskal_index argsort' sort' (renamed p D) lab' metric = goodman_kruskal_index argsort sort D lab metric.
Proof.
  intros argsort sort argsort' sort' HA HS HA' HS' D lab lab' metric p q (Hsq & Sy) H HL HL' Hv Hn Hlab Hb.
  assert (Inj : forall i j, i < nrow D -> j < nrow D -> i <> j -> p i <> p j).
  { intros a b Ha Hb' Hne E2. apply Hne. now apply (renaming_inj (nrow D) p q). }
  assert (Pr : forall a, a < nrow D -> p a < nrow D) by (intros; now apply H).
  assert (Ev : forall e, In e (edges (nrow D)) -> edge_val (renamed p D) e = edge_val D (redge p e)).
  { intros (a, b) He. apply edges_spec in He. unfold edge_val, redge. cbn [renamed at2 fst snd].
    destruct (Nat.le_ge_cases (p a) (p b)).
    - now rewrite Nat.min_l, Nat.max_r by assumption.
    - rewrite Nat.min_r, Nat.max_l by assumption. apply Sy; apply Pr; lia. }
  assert (E1 : n_smaller (renamed p D) lab' = n_smaller D lab).
  { unfold n_smaller. apply (quadruples_renamed (nrow D) lab lab' _ _ p q H Hlab). intros e o He Ho. now rewrite !Ev. }
  assert (E2 : n_larger (renamed p D) lab' = n_larger D lab).
  { unfold n_larger. apply (quadruples_renamed (nrow D) lab lab' _ _ p q H Hlab). intros e o He Ho. now rewrite !Ev. }
  assert (Eq : forall x : f64, nisnan x = false -> neq x x = true) by (intros x Hx; rewrite (cl_eq _ _ _ f64_cmp), (cl_nan _ _ _ f64_cmp) in *; destruct (f2x x); cbn in *; try congruence; destruct (Req_EM_T _ _); congruence).
  rewrite !gk_index_spec; try assumption; rewrite ?E1, ?E2; auto.
  - intros i j Hi Hj Hne. rewrite (Sy j i) by assumption. now apply Eq, Hn.
  - intros i j Hi Hj Hne. cbn [renamed nrow at2] in *. rewrite (Sy (p j) (p i)) by auto. apply Eq, Hn; auto.
Qed.

(** ** C132 (6): without symmetry this fails: Mutual Proximity takes the distance of
    two objects from the row of the object with the larger number. *)
Definition exAsym : arr2 f64 := of_rows nnan (map (map f64_ofZ) [[0; 1; 2]; [3; 0; 2]; [2; 2; 0]]%Z).
Definition ex_swap (i : nat) : nat := nth i [1; 0; 2] 0.
Theorem C132_symmetry_is_needed :
  exists (D : arr2 f64) p q M M', nrow D = ncol D /\ renaming (nrow D) p q /\
    mp_empiric_full D "distance" TNone = Ok M /\ mp_empiric_full (renamed p D) "distance" TNone = Ok M' /\
    exists i j, i < nrow D /\ j < nrow D /\ neq (at2 M' i j) (at2 M (p i) (p j)) = false.
Proof.
  exists exAsym, ex_swap, ex_swap.
  destruct (C07_mp_distance_formula exAsym) as (M & E & _ & _ & _ & A); [change (nrow exAsym) with 3; lia|reflexivity|].
  destruct (C07_mp_distance_formula (renamed ex_swap exAsym)) as (M' & E' & _ & _ & _ & A'); [change (nrow (renamed ex_swap exAsym)) with 3; lia|reflexivity|].
  exists M, M'. split; [reflexivity|]. split; [intros [|[|[|i]]] Hi; change (nrow exAsym) with 3 in Hi; try lia; cbn; repeat split; lia|].
  split; [exact E|]. split; [exact E'|]. exists 0, 1. change (nrow exAsym) with 3 in *. change (nrow (renamed ex_swap exAsym)) with 3 in *.
  split; [lia|]. split; [lia|]. change (ex_swap 0) with 1. change (ex_swap 1) with 0.
  rewrite (proj2 (A 0 1 ltac:(lia) ltac:(lia))), (proj1 (A 0 1 ltac:(lia) ltac:(lia))), (proj1 (A' 0 1 ltac:(lia) ltac:(lia))).
  vm_compute. reflexivity.
Qed.

(** the symmetric matrix of C01-C06 and its rotation *)
Definition exX : arr2 xr := of_rows XNaN (map (map (fun z => XFin (IZR z))) [[0; 5; 3]; [5; 0; 1]; [3; 1; 0]]%Z).
Example C132_case :
  symmetric exD /\ renaming (nrow exD) ex_p ex_q /\ (Z.of_nat (nrow exD) <= 2 ^ 53)%Z /\
  (forall i x, i < nrow exD -> x < nrow exD -> x <> i -> nisfin (at2 exD i x) = true) /\
  (forall i x y, i < nrow exD -> x < nrow exD -> y < nrow exD -> x <> y -> x <> i -> y <> i -> neq (at2 exD i x) (at2 exD i y) = false) /\
  (forall i j, i < nrow exD -> j < nrow exD -> i <> j -> nisnan (at2 exD i j) = false) /\
  symmetric exX /\ renaming (nrow exX) ex_p ex_q /\ 0 < 1 < nrow exX /\
  (forall i j, i < nrow exX -> j < nrow exX -> i <> j -> nisfin (at2 exX i j) = true) /\
  (forall i, i < nrow exD -> nth i [7; 7; 8]%Z 0%Z = nth (ex_p i) [8; 7; 7]%Z 0%Z) /\
  (Z.of_nat (n_smaller exD [8; 7; 7]%Z + n_larger exD [8; 7; 7]%Z) = 2)%Z.
Proof.
  change (nrow exD) with 3. change (nrow exX) with 3.
  assert (Rn : renaming 3 ex_p ex_q) by exact (proj1 C131_case).
  repeat match goal with |- _ /\ _ => split end; try exact Rn; try lia; try reflexivity.
  - split; [reflexivity|]. change (nrow exD) with 3. intros [|[|[|i]]] [|[|[|j]]] Hi Hj; try lia; reflexivity.
  - intros [|[|[|i]]] [|[|[|j]]] Hi Hj Hn; try lia; reflexivity.
  - intros [|[|[|i]]] [|[|[|x]]] [|[|[|y]]] Hi Hx Hy; intros; try lia; reflexivity.
  - intros [|[|[|i]]] [|[|[|j]]] Hi Hj Hn; try lia; reflexivity.
  - split; [reflexivity|]. change (nrow exX) with 3. intros [|[|[|i]]] [|[|[|j]]] Hi Hj; try lia; reflexivity.
  - intros [|[|[|i]]] [|[|[|j]]] Hi Hj Hn; try lia; reflexivity.
  - intros [|[|[|i]]] Hi; try lia; reflexivity.
Qed.

Print Assumptions C132_mutual_proximity_renamed.
Print Assumptions C132_local_scaling_renamed.
Print Assumptions C132_nicdm_renamed.
Print Assumptions C132_shared_neighbours_renamed.
Print Assumptions C132_goodman_kruskal_renamed.
Print Assumptions C132_symmetry_is_needed.
