(** Matrices with an integer dtype as argument of the functions that mark the
    self distances by infinity or NaN.  Each definition models the function up
    to (and including) the first store of a float into the integer copy of the
    matrix; [rest] stands for all that follows and is arbitrary. *)
From Coq Require Import String.
From Coq Require Import ZArith List Arith Lia Bool.
From Verif Require Import Py Num Arr Sort S_Neighbors M_IO M_Hubness M_SNN M_LS M_KNN M_MPEmpiric M_MPDist M_Simhub.
Import ListNotations.
Local Open Scope py_scope.

Section IntInput.
  Context {V : Type} {N : Num V}.
  (** value of a finite float as an integer: towards zero *)
  Variable vtrunc : V -> Z.

  (** numpy: conversion of a float that is stored in an integer array (used at
      hubness.py:194, 198, 263, 267, local_scaling.py:99, 262, 380, 495, shared_neighbors.py:123, 254,
      401, 404, 555, 558, global_scaling.py:166, 275, 486, 618, 621, 818,
      knn_classification.py:162, 178, 380, 396) *)
  Definition int_of (v : V) : result Z :=
    if nisnan v then Raise ValueError
    else if nisfin v then Ok (vtrunc v) else Raise OverflowError.

  (** [np.fill_diagonal(D, v)] converts [v] before it writes
      (hubness.py:194, 263, local_scaling.py:262, 495, shared_neighbors.py:254, 401, 555,
      global_scaling.py:275, 618, 818) *)
  Definition fill_diagonal_int (D : arr2 Z) (v : V) : result (arr2 Z) :=
    let* z := int_of v in Ok (fill_diagonal D z).

  (** [D[mask] = v] with a boolean mask converts [v] before it looks at the mask
      (hubness.py:198, 267) *)
  Definition store_mask_int (D : arr2 Z) (mask : Z -> bool) (v : V) : result (arr2 Z) :=
    let* z := int_of v in Ok (mask_value D mask z).

  (** [for j, sample in enumerate(idx): D[sample, j] = v]
      (local_scaling.py:98-99, 379-380, shared_neighbors.py:122-123, 403-404, 557-558,
      global_scaling.py:165-166, 485-486, 620-621, knn_classification.py:161-162, 379-380) *)
  Fixpoint set_cells_int (D : arr2 Z) (j : nat) (idx : list nat) (v : V) : result (arr2 Z) :=
    match idx with
    | [] => Ok D
    | s :: idx => guard ((nrow D <=? s) || (ncol D <=? j)) IndexError ;;
                  let* z := int_of v in
                  set_cells_int (set2 D s j z) (S j) idx v
    end.

  (** shape checks of the functions with an optional sample
      (shared_neighbors.py:385-388, global_scaling.py:590-593, knn_classification.py:94-97, 318-321) *)
  Definition shape_int (D : arr2 Z) (sample : option (list nat)) : result unit :=
    match sample with
    | None => check_distance_matrix_shape (Dense [nrow D; ncol D])
    | Some s => check_sample_shape_fits (Dense [nrow D; ncol D]) (Dense [length s])
    end.

  Context {A : Type}.
  Variable rest : arr2 Z -> result A.

  (** hubness.py:154-198 and 236-267.  All entries of an integer matrix are
      finite, so the mask of line 198 is empty. *)
  Definition hubness_int (D : arr2 Z) (k : Z) (metric : string) (n_jobs : Z) (seeded : bool) : result A :=
    guard (negb (n_jobs =? 1)%Z && seeded) ValueError ;;
    check_valid_metric_parameter metric ;;
    guard (hub_k k (ncol D) <? 0)%Z ValueError ;;
    let* D := if nrow D =? ncol D then fill_diagonal_int D (hub_dself metric) else Ok D in
    let* D := store_mask_int D (fun _ => false) (hub_dself metric) in
    rest D.

  (** local_scaling.py:219-262 *)
  Definition local_scaling_int (D : arr2 Z) (metric : string) : result A :=
    check_distance_matrix_shape (Dense [nrow D; ncol D]) ;;
    check_valid_metric_parameter metric ;;
    let* D := fill_diagonal_int D (ls_exclude metric) in
    rest D.

  (** local_scaling.py:69-99 (dense) *)
  Definition local_scaling_sample_int (D : arr2 Z) (metric : string) (train : list nat) : result A :=
    shape_int D (Some train) ;;
    check_valid_metric_parameter metric ;;
    guard (is_sim metric) NotImplementedError ;;
    let* D := set_cells_int D 0 train (ls_exclude metric) in
    rest D.

  (** local_scaling.py:478-495 *)
  Definition nicdm_int (D : arr2 Z) (metric : string) : result A :=
    check_distance_matrix_shape (Dense [nrow D; ncol D]) ;;
    check_valid_metric_parameter metric ;;
    guard (is_sim metric) NotImplementedError ;;
    let* D := fill_diagonal_int D ninf in
    rest D.

  (** local_scaling.py:359-380 *)
  Definition nicdm_sample_int (D : arr2 Z) (metric : string) (train : list nat) : result A :=
    shape_int D (Some train) ;;
    check_valid_metric_parameter metric ;;
    guard (is_sim metric) NotImplementedError ;;
    let* D := set_cells_int D 0 train ninf in
    rest D.

  (** shared_neighbors.py:105-123 (with [train]), 240-254 (without) *)
  Definition snn_int (D : arr2 Z) (metric : string) (train : option (list nat)) : result A :=
    shape_int D train ;;
    check_valid_metric_parameter metric ;;
    let* D := match train with
              | None => fill_diagonal_int D (snn_exclude metric)
              | Some t => set_cells_int D 0 t (snn_exclude metric)
              end in
    rest D.

  (** shared_neighbors.py:385-404 (simhubIN), 536-558 (simhub, which also
      checks [s], lines 546-548) *)
  Definition simhub_int (check_s : bool) (D : arr2 Z) (s : Z) (train : option (list nat)) : result A :=
    shape_int D train ;;
    guard (check_s && negb ((0 <? s)%Z && (s <? Z.of_nat (ncol D))%Z)) ValueError ;;
    let* D := match train with
              | None => fill_diagonal_int D ninf
              | Some t => set_cells_int D 0 t ninf
              end in
    rest D.

  (** global_scaling.py:135-166 (with [idx]), 247-275 (without) *)
  Definition mp_empiric_int (D : arr2 Z) (metric : string) (idx : option (list nat)) (test : testind) : result A :=
    shape_int D idx ;;
    check_valid_metric_parameter metric ;;
    guard (match idx with None => test_ind_rejected test | Some _ => false end) NotImplementedError ;;
    let* D := match idx with
              | None => fill_diagonal_int D (mp_exclude metric)
              | Some t => set_cells_int D 0 t (mp_exclude metric)
              end in
    rest D.

  (** global_scaling.py:590-621 mutual_proximity_gaussi; 461-486 (the variant
      with [idx] of its own, which checks the indices by line 468) *)
  Definition mp_gaussi_int (D : arr2 Z) (metric : string) (idx : option (list nat)) : result A :=
    shape_int D idx ;;
    check_valid_metric_parameter metric ;;
    let* D := match idx with
              | None => fill_diagonal_int D nnan
              | Some t => set_cells_int D 0 t nnan
              end in
    rest D.

  (** global_scaling.py:797-818 *)
  Definition mp_gammai_int (D : arr2 Z) (metric : string) : result A :=
    check_distance_matrix_shape (Dense [nrow D; ncol D]) ;;
    check_valid_metric_parameter metric ;;
    let* D := fill_diagonal_int D nnan in
    rest D.

  (** knn_classification.py:94-178 (score), 316-396 (predict: no check of the
      labels, no test set): with a sample the marks are stored before the loop
      over the points, else in the loop.  [rest] is what follows the first store. *)
  Definition knn_int (pred : bool) (D : arr2 Z) (n_labels : nat) (metric : string)
      (test sample : option (list nat)) (first_result : result A) : result A :=
    shape_int D sample ;;
    (if pred then Ok tt else check_distance_matrix_shape_fits_labels (Dense [nrow D; ncol D]) (Dense [n_labels])) ;;
    check_valid_metric_parameter metric ;;
    guard (pred && match test with Some _ => true | None => false end) UnboundLocalError ;;
    guard (match test, sample with Some _, Some _ => true | _, _ => false end) NotImplementedError ;;
    guard (n_labels <? nrow D) IndexError ;;
    match sample with
    | Some s => let* D := set_cells_int D 0 s (knn_self metric) in rest D
    | None =>
        match (match test with None => seq 0 (nrow D) | Some t => t end) with
        | [] => first_result
        | i :: _ => guard (nrow D <=? i) IndexError ;;
                    let* z := int_of (knn_self metric) in rest (set2 D i i z)
        end
    end.
End IntInput.

(** the integers as float64 numbers: [D.astype(np.float64)] (the conversion of
    hubness_analysis.py:134, or done by the caller) *)
Definition to_f64 (D : arr2 Z) : arr2 f64 := Arr2 (nrow D) (ncol D) (fun i j => nofZ (at2 D i j)).
