(** Properties C01-C06: the function [hubness] (hubness.py:94-302), for IEEE
    float64 matrices.  [argpart] is any implementation of numpy.argpartition
    that meets its contract; [rps i] is the random permutation drawn for row
    [i]; [se] is the argument shuffle_equal; [sparse] tells whether D is given
    as a scipy sparse matrix. *)
From Coq Require Import String.
From Coq Require Import ZArith List Arith Lia Bool Permutation.
From Verif Require Import Py Num Arr Sort Conc S_Neighbors M_IO M_Hubness.
From Verif Require Import P_Hubness P_HubnessMain P_HubnessWide.
Import ListNotations.

(** ** C01 *)
Theorem C01_occurrences_conserved :
  forall (argpart : list f64 -> list nat -> list nat), argpart_ok argpart ->
  forall sparse (D : arr2 f64) (k : nat) metric se rps,
    (forall i, i < nrow D -> Permutation (rps i) (seq 0 (ncol D))) ->
  forall o,
    hubness_serial argpart sparse D (Z.of_nat k) metric se rps = Ok o \/
    hubness_parallel argpart sparse D (Z.of_nat k) metric se rps false (Ok o) ->
    length (out_Nk o) = ncol D /\
    sum_nat (out_Nk o) = nrow D * Nat.min k (ncol D - 1) /\
    (forall c, In c (out_Nk o) -> c <= nrow D) /\
    (forall x, x < ncol D -> nth x (out_Nk o) 0
       = length (filter (fun r => existsb (Nat.eqb x) r) (out_Dk o))).
Proof.
  intros argpart AP sparse D k metric se rps Hrp o [H|H].
  - exact (serial_conserved argpart AP sparse D k metric se rps o Hrp H).
  - exact (parallel_conserved f64_cmp argpart AP sparse D k metric se rps o Hrp H).
Qed.

(** ** C02: totality and k nearest neighbours, serial *)
Theorem C02_serial_neighbours_are_nearest :
  forall (argpart : list f64 -> list nat -> list nat), argpart_ok argpart ->
  forall sparse (D : arr2 f64) (k : nat) metric se rps,
    valid_metric metric = true -> 0 < ncol D ->
    nrow D = ncol D \/ metric = "distance"%string ->
    (forall i, i < nrow D -> Permutation (rps i) (seq 0 (ncol D))) ->
    exists o, hubness_serial argpart sparse D (Z.of_nat k) metric se rps = Ok o /\
      length (out_Dk o) = nrow D /\
      out_Nk o = bincount (concat (out_Dk o)) (ncol D) /\
      forall i, i < nrow D ->
        knn_list (fun x y => nearer metric (eff metric D i x) (eff metric D i y))
                 (ncol D) (Nat.min k (ncol D - 1)) (nth i (out_Dk o) []).
Proof. intros. now apply (serial_knn f64_cmp). Qed.

(** ** C02: the same for every outcome of the worker pool, every shape *)
Theorem C02_parallel_neighbours_are_nearest :
  forall (argpart : list f64 -> list nat -> list nat), argpart_ok argpart ->
  forall sparse (D : arr2 f64) (k : nat) metric se rps r,
    valid_metric metric = true -> 0 < ncol D ->
    (forall i, i < nrow D -> Permutation (rps i) (seq 0 (ncol D))) ->
    hubness_parallel argpart sparse D (Z.of_nat k) metric se rps false r ->
    exists o, r = Ok o /\
      length (out_Dk o) = nrow D /\
      out_Nk o = bincount (concat (out_Dk o)) (ncol D) /\
      forall i, i < nrow D ->
        knn_list (fun x y => nearer metric (eff metric D i x) (eff metric D i y))
                 (ncol D) (Nat.min k (ncol D - 1)) (nth i (out_Dk o) []).
Proof. intros. now apply (parallel_knn f64_cmp argpart H sparse D k metric se rps r). Qed.

(** ** C03 *)
Theorem C03_never_own_neighbour :
  forall (argpart : list f64 -> list nat -> list nat), argpart_ok argpart ->
  forall sparse (D : arr2 f64) (k : nat) metric se rps o i,
    nrow D = ncol D ->
    (forall i, i < nrow D -> Permutation (rps i) (seq 0 (ncol D))) ->
    i < nrow D ->
    hubness_serial argpart sparse D (Z.of_nat k) metric se rps = Ok o ->
    (Nat.min k (ncol D - 1)
       <= count_if (fun j => nisfin (at2 D i j) && negb (j =? i)) (ncol D) ->
       ~ In i (nth i (out_Dk o) []) /\
       forall j, In j (nth i (out_Dk o) []) -> nisfin (at2 D i j) = true) /\
    (forall j x, In j (nth i (out_Dk o) []) -> nisfin (at2 D i j) = false \/ j = i ->
       x < ncol D -> x <> i -> nisfin (at2 D i x) = true -> In x (nth i (out_Dk o) [])).
Proof. intros. now apply (serial_no_self f64_cmp argpart H sparse D k metric se rps o i). Qed.

(** ** C04 *)
Theorem C04_parallel_equals_serial :
  forall (argpart : list f64 -> list nat -> list nat), argpart_ok argpart ->
  forall sparse (D : arr2 f64) (k : Z) metric se rps,
    nrow D = ncol D \/ metric = "distance"%string ->
    (forall i, i < nrow D -> Permutation (rps i) (seq 0 (ncol D))) ->
    (forall r, hubness_parallel argpart sparse D k metric se rps false r ->
               r = hubness_serial argpart sparse D k metric se rps) /\
    hubness_parallel argpart sparse D k metric se rps false
      (hubness_serial argpart sparse D k metric se rps).
Proof. intros. now apply (parallel_eq_serial f64_cmp). Qed.

(** ** C05: more rows than columns: always an exception *)
Theorem C05_tall_similarity_raises :
  forall (argpart : list f64 -> list nat -> list nat)
         sparse (D : arr2 f64) (k : nat) se rps,
    ncol D < nrow D -> 2 <= ncol D -> 1 <= k ->
    (forall i, i < nrow D -> Permutation (rps i) (seq 0 (ncol D))) ->
    hubness_serial argpart sparse D (Z.of_nat k) "similarity" se rps = Raise ValueError.
Proof. intros. now apply serial_sim_tall. Qed.

(** ** C05: fewer rows than columns: wrong ranks.  On rows with increasing
    similarities the most similar columns are m-1, m-2, ...; the serial code
    reports n-1, n-2, ... while every parallel run reports the right ones. *)
Theorem C05_wide_similarity_wrong_ranks :
  forall (argpart : list f64 -> list nat -> list nat), argpart_ok argpart ->
  forall sparse (D : arr2 f64) (k : nat) se rps,
    nrow D < ncol D -> 1 <= k -> k <= nrow D ->
    (forall i, i < nrow D -> Permutation (rps i) (seq 0 (ncol D))) ->
    (forall i x, i < nrow D -> x < ncol D -> nisfin (at2 D i x) = true) ->
    (forall i x y, i < nrow D -> x < y -> y < ncol D -> nlt (at2 D i x) (at2 D i y) = true) ->
    (exists o, hubness_serial argpart sparse D (Z.of_nat k) "similarity" se rps = Ok o /\
       out_Dk o = repeat (rev (seq (nrow D - k) k)) (nrow D)) /\
    (forall r, hubness_parallel argpart sparse D (Z.of_nat k) "similarity" se rps false r ->
       exists o, r = Ok o /\ out_Dk o = repeat (rev (seq (ncol D - k) k)) (nrow D)).
Proof.
  intros argpart AP sparse D k se rps H1 H2 H3 H4 H5 H6. split.
  - now apply (serial_sim_wide f64_cmp).
  - intros r Hr. apply (parallel_sim_wide f64_cmp argpart AP sparse D k se rps r); auto; lia.
Qed.

(** ** C06 (general form): two calls that see the same strict order of usable
    candidates in each row, without ties, return the same lists and counts. *)
Theorem C06_result_determined_by_order :
  forall (argpart1 : list f64 -> list nat -> list nat), argpart_ok argpart1 ->
  forall (argpart2 : list f64 -> list nat -> list nat), argpart_ok argpart2 ->
  forall sp1 sp2 (D1 D2 : arr2 f64) (k : nat) metric1 metric2 se1 se2 rps1 rps2 o1 o2,
    nrow D1 = ncol D1 \/ metric1 = "distance"%string ->
    nrow D2 = ncol D2 \/ metric2 = "distance"%string ->
    nrow D1 = nrow D2 -> ncol D1 = ncol D2 ->
    (forall i, i < nrow D1 -> Permutation (rps1 i) (seq 0 (ncol D1))) ->
    (forall i, i < nrow D2 -> Permutation (rps2 i) (seq 0 (ncol D2))) ->
    (forall i, i < nrow D1 ->
       Nat.min k (ncol D1 - 1) <= count_if (usable metric1 D1 i) (ncol D1) /\
       (forall x, x < ncol D1 -> usable metric1 D1 i x = usable metric2 D2 i x) /\
       (forall x y, x < ncol D1 -> y < ncol D1 ->
          usable metric1 D1 i x = true -> usable metric1 D1 i y = true ->
          nearer metric1 (at2 D1 i x) (at2 D1 i y) = nearer metric2 (at2 D2 i x) (at2 D2 i y)) /\
       (forall x y, x < ncol D1 -> y < ncol D1 -> x <> y ->
          usable metric1 D1 i x = true -> usable metric1 D1 i y = true ->
          nearer metric1 (at2 D1 i x) (at2 D1 i y) = true \/
          nearer metric1 (at2 D1 i y) (at2 D1 i x) = true)) ->
    hubness_serial argpart1 sp1 D1 (Z.of_nat k) metric1 se1 rps1 = Ok o1 ->
    hubness_serial argpart2 sp2 D2 (Z.of_nat k) metric2 se2 rps2 = Ok o2 ->
    o1 = o2.
Proof. intros. now apply (serial_order_unique f64_cmp argpart1 H argpart2 H0 sp1 sp2 D1 D2 k
  metric1 metric2 se1 se2 rps1 rps2 o1 o2). Qed.

(** ** C06 proper: shuffling and the partition implementation have no effect
    without ties (square matrices, values finite off the diagonal). *)
Theorem C06_shuffle_irrelevant_without_ties :
  forall (argpart1 : list f64 -> list nat -> list nat), argpart_ok argpart1 ->
  forall (argpart2 : list f64 -> list nat -> list nat), argpart_ok argpart2 ->
  forall sparse1 sparse2 (D : arr2 f64) (k : nat) metric se1 se2 rps1 rps2,
    valid_metric metric = true ->
    0 < nrow D -> nrow D = ncol D ->
    (forall i, i < nrow D -> Permutation (rps1 i) (seq 0 (ncol D))) ->
    (forall i, i < nrow D -> Permutation (rps2 i) (seq 0 (ncol D))) ->
    (forall i, i < nrow D ->
       Nat.min k (ncol D - 1) <= count_if (fun j => nisfin (at2 D i j) && negb (j =? i)) (ncol D)) ->
    (forall i x y, i < nrow D -> x < ncol D -> y < ncol D -> x <> y -> x <> i -> y <> i ->
       nisfin (at2 D i x) = true -> nisfin (at2 D i y) = true ->
       neq (at2 D i x) (at2 D i y) = false) ->
    hubness_serial argpart1 sparse1 D (Z.of_nat k) metric se1 rps1
    = hubness_serial argpart2 sparse2 D (Z.of_nat k) metric se2 rps2.
Proof.
  intros argpart1 AP1 argpart2 AP2 sp1 sp2 D k metric se1 se2 rps1 rps2 Hv Hn Hsq R1 R2 Hc Ht.
  exact (serial_no_ties f64_cmp argpart1 AP1 argpart2 AP2 sp1 sp2 D k metric se1 se2 rps1 rps2
           Hv Hn Hsq R1 R2 Hc Ht).
Qed.

(* ------------------------------------------------------------------ *)
(** ** Non-vacuity: concrete inputs meeting the hypotheses *)

Definition exD : arr2 f64 :=
  of_rows nnan (map (map f64_ofZ) [[0; 5; 3]; [5; 0; 1]; [3; 1; 0]]%Z).
Definition ex_rps (i : nat) : list nat := nth i [[2;0;1]; [0;1;2]; [1;2;0]] [].

Example ex_argpart : argpart_ok (ref_argpart (V:=f64)).
Proof. exact (ref_argpart_ok f64_cmp). Qed.

Example ex_rps_wf : forall i, i < nrow exD -> Permutation (ex_rps i) (seq 0 (ncol exD)).
Proof.
  intros i Hi. change (nrow exD) with 3 in Hi.
  destruct i as [|[|[|i]]]; [| | |lia]; unfold ex_rps; cbn.
  - transitivity [0;2;1]; [apply perm_swap|]. apply perm_skip. apply perm_swap.
  - reflexivity.
  - transitivity [1;0;2]; [apply perm_skip, perm_swap|]. apply perm_swap.
Qed.

(** C01, C02, C03, C04, C06: a run on exD *)
Example ex_run :
  match hubness_serial ref_argpart false exD 1 "distance" true ex_rps with
  | Ok o => (out_Dk o, out_Nk o) | Raise _ => ([], []) end = ([[2];[2];[1]], [0;1;2]).
Proof. vm_compute. reflexivity. Qed.

Example ex_run_sim :
  match hubness_serial ref_argpart false exD 2 "similarity" true ex_rps with
  | Ok o => (out_Dk o, out_Nk o) | Raise _ => ([], []) end = ([[1;2];[0;2];[0;1]], [2;2;2]).
Proof. vm_compute. reflexivity. Qed.

Example ex_enough_finite : forall i, i < 3 ->
  Nat.min 2 (ncol exD - 1) <= count_if (fun j => nisfin (at2 exD i j) && negb (j =? i)) (ncol exD).
Proof. intros [|[|[|i]]] Hi; try lia; vm_compute; lia. Qed.

Example ex_no_ties : forall i x y, i < 3 -> x < 3 -> y < 3 -> x <> y -> x <> i -> y <> i ->
  neq (at2 exD i x) (at2 exD i y) = false.
Proof.
  intros i x y Hi Hx Hy. destruct i as [|[|[|i]]], x as [|[|[|x]]], y as [|[|[|y]]];
    try lia; vm_compute; intros; try lia; reflexivity.
Qed.

(** C05: a tall and a wide matrix *)
Definition exWide : arr2 f64 := of_rows nnan (map (map f64_ofZ) [[1;2;3]; [1;2;3]]%Z).
Example ex_wide_hyps :
  nrow exWide < ncol exWide /\
  (forall i x, i < nrow exWide -> x < ncol exWide -> nisfin (at2 exWide i x) = true) /\
  (forall i x y, i < nrow exWide -> x < y -> y < ncol exWide ->
     nlt (at2 exWide i x) (at2 exWide i y) = true).
Proof.
  change (nrow exWide) with 2. change (ncol exWide) with 3. split; [lia|]. split.
  - intros [|[|i]] [|[|[|x]]] ? ?; try lia; reflexivity.
  - intros [|[|i]] [|[|[|x]]] [|[|[|y]]] ? ? ?; try lia; reflexivity.
Qed.
Example ex_wide_run :
  match hubness_serial ref_argpart false exWide 1 "similarity" false ex_rps with
  | Ok o => out_Dk o | Raise _ => [] end = [[1];[1]].
Proof. vm_compute. reflexivity. Qed.

Print Assumptions C01_occurrences_conserved.
Print Assumptions C02_serial_neighbours_are_nearest.
Print Assumptions C02_parallel_neighbours_are_nearest.
Print Assumptions C03_never_own_neighbour.
Print Assumptions C04_parallel_equals_serial.
Print Assumptions C05_tall_similarity_raises.
Print Assumptions C05_wide_similarity_wrong_ranks.
Print Assumptions C06_result_determined_by_order.
Print Assumptions C06_shuffle_irrelevant_without_ties.
