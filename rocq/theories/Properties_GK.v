(** Properties C17-C19, C49: goodman_kruskal.py, float64. *)
From Coq Require Import String.
From Coq Require Import ZArith List Arith Lia Bool Permutation.
From Verif Require Import Py Num Arr Sort S_Neighbors S_GK M_IO M_GK P_GK P_GK2 P_GK3.
Import ListNotations.
Local Open Scope nat_scope.

(** ** C17.  [D] is symmetric and free of NaN off the diagonal (IEEE [==]).
    The number of strictly ordered quadruples is at most 2^53, so that the
    float64 accumulators hold it. *)
Theorem C17_index_is_gamma :
  forall argsort sort, stable_ok argsort -> sort_ok sort ->
  forall (D : arr2 f64) (lab : list Z) metric,
    nrow D = ncol D -> length lab = nrow D -> valid_metric metric = true ->
    (forall i j, i < nrow D -> j < nrow D -> i <> j -> neq (at2 D i j) (at2 D j i) = true) ->
    (Z.of_nat (n_smaller D lab + n_larger D lab) <= 2 ^ 53)%Z ->
    goodman_kruskal_index argsort sort D lab metric =
    Ok (if is_sim metric then gamma (n_larger D lab) (n_smaller D lab)
        else gamma (n_smaller D lab) (n_larger D lab)).
Proof. intros. now apply gk_index_spec. Qed.

Theorem C17_fast_equals_naive :
  forall argsort sort, stable_ok argsort -> sort_ok sort ->
  forall (D : arr2 f64) (lab : list Z) metric,
    nrow D = ncol D -> length lab = nrow D -> valid_metric metric = true ->
    (forall i j, i < nrow D -> j < nrow D -> i <> j -> neq (at2 D i j) (at2 D j i) = true) ->
    (Z.of_nat (n_smaller D lab + n_larger D lab) <= 2 ^ 53)%Z ->
    goodman_kruskal_index argsort sort D lab metric = naive_goodman_kruskal D lab metric.
Proof.
  intros. rewrite gk_index_spec by assumption. now rewrite naive_index_spec.
Qed.

Theorem C17_no_comparable_pair_is_zero :
  forall argsort sort, stable_ok argsort -> sort_ok sort ->
  forall (D : arr2 f64) (lab : list Z) metric,
    nrow D = ncol D -> length lab = nrow D -> valid_metric metric = true ->
    (forall i j, i < nrow D -> j < nrow D -> i <> j -> neq (at2 D i j) (at2 D j i) = true) ->
    (forall a b c d, a < b < nrow D -> c < d < nrow D ->
       nth a lab 0%Z = nth b lab 0%Z -> nth c lab 0%Z <> nth d lab 0%Z ->
       neq (at2 D a b) (at2 D c d) = true) ->
    goodman_kruskal_index argsort sort D lab metric = Ok n0.
Proof.
  intros argsort sort HA HS D lab metric Hsq HL Hv Hsym Heq.
  assert (Z : forall P, (forall e o, neq (edge_val D e) (edge_val D o) = true -> P e o = false) ->
            quadruples (nrow D) lab P = 0).
  { intros P HP. unfold quadruples. apply (cnt_zero). intros ((a, b), (c, d)) H.
    apply in_prod_iff in H. destruct H as (H1 & H2). apply edges_spec in H1. apply edges_spec in H2.
    unfold within. cbn [fst snd].
    destruct (Z.eqb_spec (nth a lab 0%Z) (nth b lab 0%Z)), (Z.eqb_spec (nth c lab 0%Z) (nth d lab 0%Z));
      simpl; try reflexivity. apply HP. now apply Heq. }
  assert (E1 : n_smaller D lab = 0).
  { apply Z. intros e o H. rewrite (nlt_neq_l f64_cmp _ _ _ H). apply (nlt_irrefl f64_cmp). }
  assert (E2 : n_larger D lab = 0).
  { apply Z. intros e o H. rewrite (nlt_neq_r f64_cmp _ _ _ H). apply (nlt_irrefl f64_cmp). }
  rewrite gk_index_spec; try assumption.
  - rewrite E1, E2. now destruct (is_sim metric).
  - rewrite E1, E2. vm_compute. discriminate.
Qed.

(** ** C18 *)
Theorem C18_range :
  forall argsort sort, stable_ok argsort -> sort_ok sort ->
  forall (D : arr2 f64) (lab : list Z) metric,
    nrow D = ncol D -> length lab = nrow D -> valid_metric metric = true ->
    (forall i j, i < nrow D -> j < nrow D -> i <> j -> neq (at2 D i j) (at2 D j i) = true) ->
    (Z.of_nat (n_smaller D lab + n_larger D lab) <= 2 ^ 53)%Z ->
    exists g, goodman_kruskal_index argsort sort D lab metric = Ok g /\
      nle (nofZ (-1)) g = true /\ nle g (nofZ 1) = true.
Proof.
  intros. rewrite gk_index_spec by assumption. eexists. split; [reflexivity|].
  destruct (is_sim metric); apply gamma_range; lia.
Qed.

Theorem C18_metric_switch_negates :
  forall argsort sort, stable_ok argsort -> sort_ok sort ->
  forall (D : arr2 f64) (lab : list Z),
    nrow D = ncol D -> length lab = nrow D ->
    (forall i j, i < nrow D -> j < nrow D -> i <> j -> neq (at2 D i j) (at2 D j i) = true) ->
    (Z.of_nat (n_smaller D lab + n_larger D lab) <= 2 ^ 53)%Z ->
    exists gd gs, goodman_kruskal_index argsort sort D lab "distance" = Ok gd /\
      goodman_kruskal_index argsort sort D lab "similarity" = Ok gs /\
      neq gs (nopp gd) = true.
Proof.
  intros. rewrite !gk_index_spec by (assumption || reflexivity).
  eexists. eexists. split; [reflexivity|]. split; [reflexivity|].
  cbn [is_sim]. change (is_sim "similarity") with true. change (is_sim "distance") with false. cbv iota.
  apply gamma_neg. lia.
Qed.

Theorem C18_monotone_invariance :
  forall argsort sort, stable_ok argsort -> sort_ok sort ->
  forall (D : arr2 f64) (lab : list Z) metric (f : f64 -> f64),
    nrow D = ncol D -> length lab = nrow D -> valid_metric metric = true ->
    (forall i j, i < nrow D -> j < nrow D -> i <> j -> neq (at2 D i j) (at2 D j i) = true) ->
    (Z.of_nat (n_smaller D lab + n_larger D lab) <= 2 ^ 53)%Z ->
    (forall i j k l, i < nrow D -> j < nrow D -> k < nrow D -> l < nrow D -> i <> j -> k <> l ->
       nlt (f (at2 D i j)) (f (at2 D k l)) = nlt (at2 D i j) (at2 D k l)) ->
    (forall i j, i < nrow D -> j < nrow D -> i <> j -> nisnan (f (at2 D i j)) = false) ->
    goodman_kruskal_index argsort sort (map2d f D) lab metric =
    goodman_kruskal_index argsort sort D lab metric.
Proof.
  intros argsort sort HA HS D lab metric f Hsq HL Hv Hsym Hb Hf Hn.
  assert (E1 : n_smaller (map2d f D) lab = n_smaller D lab).
  { unfold n_smaller. apply quadruples_ext; [reflexivity|]. intros. unfold edge_val. simpl. apply Hf; lia. }
  assert (E2 : n_larger (map2d f D) lab = n_larger D lab).
  { unfold n_larger. apply quadruples_ext; [reflexivity|]. intros. unfold edge_val. simpl. apply Hf; lia. }
  rewrite !gk_index_spec; try assumption.
  - now rewrite E1, E2.
  - intros i j Hi Hj Hne. cbn [map2d nrow at2] in *.
    specialize (Hsym i j Hi Hj Hne).
    pose proof (tri f64_cmp (f (at2 D i j)) (f (at2 D j i)) (Hn i j Hi Hj Hne) (Hn j i Hj Hi (not_eq_sym Hne))) as T.
    rewrite !Hf in T by auto.
    rewrite (nlt_neq_l f64_cmp _ _ _ Hsym), (nlt_irrefl f64_cmp) in T.
    rewrite (nlt_neq_r f64_cmp _ _ _ Hsym), (nlt_irrefl f64_cmp) in T.
    destruct (neq (f (at2 D i j)) (f (at2 D j i))); [reflexivity|simpl in T; lia].
  - now rewrite E1, E2.
Qed.

Theorem C18_relabelling_invariance :
  forall argsort sort, stable_ok argsort -> sort_ok sort ->
  forall (D : arr2 f64) (lab : list Z) metric (h : Z -> Z),
    nrow D = ncol D -> length lab = nrow D -> valid_metric metric = true ->
    (forall i j, i < nrow D -> j < nrow D -> i <> j -> neq (at2 D i j) (at2 D j i) = true) ->
    (Z.of_nat (n_smaller D lab + n_larger D lab) <= 2 ^ 53)%Z ->
    (forall x y, In x lab -> In y lab -> h x = h y -> x = y) ->
    goodman_kruskal_index argsort sort D (map h lab) metric =
    goodman_kruskal_index argsort sort D lab metric.
Proof.
  intros argsort sort HA HS D lab metric h Hsq HL Hv Hsym Hb Hh.
  assert (Hw : forall i j, i < nrow D -> j < nrow D ->
    (nth i (map h lab) 0 =? nth j (map h lab) 0)%Z = (nth i lab 0 =? nth j lab 0)%Z).
  { intros i j Hi Hj. rewrite (nth_indep _ 0%Z (h 0%Z)) by (rewrite map_length; lia).
    rewrite (nth_indep (map h lab) 0%Z (h 0%Z) (n := j)) by (rewrite map_length; lia).
    rewrite !map_nth. destruct (Z.eqb_spec (nth i lab 0%Z) (nth j lab 0%Z)) as [->|E].
    - apply Z.eqb_refl.
    - apply Z.eqb_neq. intros E'. apply E. apply Hh; auto; apply nth_In; lia. }
  assert (E1 : n_smaller D (map h lab) = n_smaller D lab) by (apply quadruples_ext; auto).
  assert (E2 : n_larger D (map h lab) = n_larger D lab) by (apply quadruples_ext; auto).
  rewrite !gk_index_spec; try assumption.
  - now rewrite E1, E2.
  - now rewrite map_length.
  - now rewrite E1, E2.
Qed.

(** ** C19 *)
Theorem C19_sparse_equals_dense :
  forall argsort sort, stable_ok argsort -> sort_ok sort ->
  forall (S : arr2 f64) (lab : list Z) metric,
    nrow S = ncol S -> length lab = nrow S -> valid_metric metric = true ->
    (forall i j, i < nrow S -> j < nrow S -> i <> j -> neq (at2 S i j) (at2 S j i) = true) ->
    (forall i j, i < nrow S -> j < nrow S -> i <> j -> nle n0 (at2 S i j) = true) ->
    (Z.of_nat (n_smaller S lab + n_larger S lab) <= 2 ^ 53)%Z ->
    sparse_goodman_kruskal_index argsort sort S lab metric false false =
    goodman_kruskal_index argsort sort S lab metric.
Proof.
  intros argsort sort HA HS S lab metric Hsq HL Hv Hsym Hpos Hb.
  rewrite gk_index_spec by assumption. apply sgk_index_spec; try assumption.
  - intros i j Hij. apply Hpos; lia.
  - discriminate.
Qed.

Definition exNeg : arr2 f64 := of_rows nnan (map (map f64_ofZ) [[0;-1;0];[-1;0;0];[0;0;0]]%Z).

Theorem C19_negative_values_differ :
  exists (S : arr2 f64) lab gs gd,
    nrow S = 3 /\ ncol S = 3 /\ length lab = 3 /\
    (forall i j, i < 3 -> j < 3 -> i <> j -> neq (at2 S i j) (at2 S j i) = true) /\
    sparse_goodman_kruskal_index ref_argsort ref_sort S lab "similarity" false false = Ok gs /\
    goodman_kruskal_index ref_argsort ref_sort S lab "similarity" = Ok gd /\
    neq gs (nofZ 1) = true /\ neq gd (nofZ (-1)) = true.
Proof.
  exists exNeg, [7; 7; 9]%Z.
  destruct (sparse_goodman_kruskal_index ref_argsort ref_sort exNeg [7; 7; 9]%Z "similarity" false false)
    as [gs|] eqn:E; [|discriminate].
  destruct (goodman_kruskal_index ref_argsort ref_sort exNeg [7; 7; 9]%Z "similarity")
    as [gd|] eqn:E'; [|discriminate].
  exists gs, gd. split; [reflexivity|]. split; [reflexivity|]. split; [reflexivity|]. split.
  { intros [|[|[|i]]] [|[|[|j]]] ? ? ?; try lia; reflexivity. }
  split; [reflexivity|]. split; [reflexivity|].
  injection E as <-. injection E' as <-. split; vm_compute; reflexivity.
Qed.

(** ** C49: the options of the sparse index *)

(** zero_mv: exactly the quadruples of two non-zero values are counted;
    values may be negative *)
Theorem C49_zero_as_missing_value :
  forall argsort sort, stable_ok argsort -> sort_ok sort ->
  forall (S : arr2 f64) (lab : list Z) metric,
    nrow S = ncol S -> length lab = nrow S -> valid_metric metric = true ->
    (forall i j, i < j < nrow S -> nisnan (at2 S i j) = false) ->
    let nonzero e := negb (neq (edge_val S e) n0) in
    let larger := quadruples (nrow S) lab (fun e o =>
          nonzero e && nonzero o && nlt (edge_val S o) (edge_val S e)) in
    let smaller := quadruples (nrow S) lab (fun e o =>
          nonzero e && nonzero o && nlt (edge_val S e) (edge_val S o)) in
    (Z.of_nat (smaller + larger) <= 2 ^ 53)%Z ->
    sparse_goodman_kruskal_index argsort sort S lab metric true false =
    Ok (if is_sim metric then gamma larger smaller else gamma smaller larger).
Proof. intros. now apply sgk_index_mv. Qed.

(** heuristic='equal_sim' changes nothing when no non-zero inner value equals
    an outer value *)
Theorem C49_heuristic_exact_without_ties :
  forall argsort sort, stable_ok argsort -> sort_ok sort ->
  forall (S : arr2 f64) (lab : list Z) metric,
    nrow S = ncol S -> length lab = nrow S -> valid_metric metric = true ->
    (forall i j, i < j < nrow S -> nle n0 (at2 S i j) = true) ->
    (forall a b c d, a < b < nrow S -> c < d < nrow S ->
       nth a lab 0%Z = nth b lab 0%Z -> nth c lab 0%Z <> nth d lab 0%Z ->
       neq (at2 S a b) (at2 S c d) = true -> neq (at2 S a b) n0 = true) ->
    (Z.of_nat (n_smaller S lab + n_larger S lab) <= 2 ^ 53)%Z ->
    sparse_goodman_kruskal_index argsort sort S lab metric false true =
    sparse_goodman_kruskal_index argsort sort S lab metric false false.
Proof.
  intros argsort sort HA HS S lab metric Hsq HL Hv Hpos Hties Hb.
  rewrite !sgk_index_spec; try assumption; try discriminate; [reflexivity|].
  intros _ c. rewrite npairs_nonzero. apply sum_nat_zero. intros (a, b) He.
  apply cnt_zero. intros (k, l) Ho.
  unfold class_cells in He. rewrite triu_edges in He. apply filter_In in He.
  destruct He as (He & Hc). apply filter_In in Ho. destruct Ho as (Ho & Hw).
  rewrite HL in He, Ho. apply edges_spec in He. apply edges_spec in Ho.
  cbn [fst snd] in *. apply andb_true_iff in Hc. destruct Hc as (Ha & Hb').
  apply Z.eqb_eq in Ha. apply Z.eqb_eq in Hb'. unfold within in Hw. cbn [fst snd] in Hw.
  apply negb_true_iff, Z.eqb_neq in Hw.
  unfold edge_val. cbn [fst snd].
  destruct (neq (at2 S a b) (at2 S k l)) eqn:E; [|apply andb_false_r].
  unfold nz. rewrite (Hties a b k l He Ho) by (congruence || assumption). reflexivity.
Qed.

(** with ties it is a different number *)
Theorem C49_heuristic_wrong_with_ties :
  exists (S : arr2 f64) lab g g',
    sparse_goodman_kruskal_index ref_argsort ref_sort S lab "similarity" false true = Ok g /\
    sparse_goodman_kruskal_index ref_argsort ref_sort S lab "similarity" false false = Ok g' /\
    neq g g' = false.
Proof.
  exists (of_rows nnan (map (map f64_ofZ) [[0;3;3;1];[3;0;2;1];[3;2;0;1];[1;1;1;0]]%Z)), [0; 0; 1; 1]%Z.
  eexists. eexists. split; [reflexivity|]. split; [reflexivity|]. vm_compute. reflexivity.
Qed.

(* ------------------------------------------------------------------ *)
(** a run meeting the hypotheses of C17-C19: 4 points, 2 classes *)
Definition exG : arr2 f64 :=
  of_rows nnan (map (map f64_ofZ) [[0;1;4;5];[1;0;2;6];[4;2;0;3];[5;6;3;0]]%Z).
Example ex_gk_contracts : stable_ok (ref_argsort (V:=f64)) /\ sort_ok (ref_sort (V:=f64)).
Proof. split; [exact (ref_argsort_stable f64_cmp)|exact (ref_sort_ok f64_cmp)]. Qed.
Example ex_gk_symm : forall i j, i < 4 -> j < 4 -> i <> j -> neq (at2 exG i j) (at2 exG j i) = true.
Proof. intros [|[|[|[|i]]]] [|[|[|[|j]]]] ? ? ?; try lia; reflexivity. Qed.
Example ex_gk_counts : (n_smaller exG [5; 5; 8; 8]%Z, n_larger exG [5; 5; 8; 8]%Z) = (7, 1).
Proof. vm_compute. reflexivity. Qed.
(** gamma = (7 - 1) / 8 = 3/4 *)
Example ex_gk_run :
  match goodman_kruskal_index ref_argsort ref_sort exG [5; 5; 8; 8]%Z "distance" with
  | Ok g => neq (nmul (nofZ 4) g) (nofZ 3) | Raise _ => false end = true.
Proof. vm_compute. reflexivity. Qed.
Example ex_gk_naive :
  match naive_goodman_kruskal exG [5; 5; 8; 8]%Z "distance" with
  | Ok g => neq (nmul (nofZ 4) g) (nofZ 3) | Raise _ => false end = true.
Proof. vm_compute. reflexivity. Qed.
Example ex_gk_mono : forall i j k l, i < 4 -> j < 4 -> k < 4 -> l < 4 -> i <> j -> k <> l ->
  nlt (nmul (at2 exG i j) (at2 exG i j)) (nmul (at2 exG k l) (at2 exG k l)) =
  nlt (at2 exG i j) (at2 exG k l).
Proof.
  intros [|[|[|[|i]]]] [|[|[|[|j]]]] [|[|[|[|k]]]] [|[|[|[|l]]]] ? ? ? ? ? ?; try lia; vm_compute; reflexivity.
Qed.

Print Assumptions C17_index_is_gamma.
Print Assumptions C17_fast_equals_naive.
Print Assumptions C17_no_comparable_pair_is_zero.
Print Assumptions C18_range.
Print Assumptions C18_metric_switch_negates.
Print Assumptions C18_monotone_invariance.
Print Assumptions C18_relabelling_invariance.
Print Assumptions C19_sparse_equals_dense.
Print Assumptions C19_negative_values_differ.
Print Assumptions C49_zero_as_missing_value.
Print Assumptions C49_heuristic_exact_without_ties.
Print Assumptions C49_heuristic_wrong_with_ties.
