(** Model of /repo/hub_toolbox/local_scaling.py and snn_sample of
    shared_neighbors.py for the remaining kinds of arguments: a sparse matrix
    (documented as [D : ndarray or csr_matrix], local_scaling.py:37, 185, 327)
    and an omitted [train_ind] (local_scaling.py:25, 314;
    shared_neighbors.py:53).  Dense matrices with [train_ind] are M_LS.v,
    M_SNN.v and M_SNNSample.v. *)
From Coq Require Import String.
From Coq Require Import ZArith List Arith Lia Bool.
From Verif Require Import Py Num Arr Sort Conc S_Neighbors M_IO M_SNN M_LS M_MPEmpiric M_SNNSample.
Import ListNotations.
Local Open Scope py_scope.

(** the matrix argument of local_scaling.py:24, 174, 313, 431 *)
Inductive matarg (V : Type) := MDense (D : arr2 V) | MSparse (Sm : smat V).
Arguments MDense {V} D. Arguments MSparse {V} Sm.

(** a numpy array as [np.copy] returns it: two-dimensional, or the
    zero-dimensional array with the sparse matrix as its only (object) element
    (local_scaling.py:90, 246, 365, 487) *)
Inductive ndarr (V : Type) := Nd2 (D : arr2 V) | Nd0 (Sm : smat V).
Arguments Nd2 {V} D. Arguments Nd0 {V} Sm.

Section LSSparse.
  Context {V : Type} {N : Num V}.
  (** as in M_LS.v *)
  Variables (vexp vln : V -> V) (vsum : list V -> V).
  Variable part : list V -> list nat -> list V.
  Variable argsort : list V -> list nat.

  (** what the checks see (local_scaling.py:70, 221, 359, 477) *)
  Definition shape_arg (A : matarg V) : pyarr :=
    match A with MDense D => Dense [nrow D; ncol D] | MSparse Sm => Sparse (srow Sm) (scol Sm) end.
  (** what the checks see of [train_ind] (local_scaling.py:70, 359) *)
  Definition train_arg (train : option (list nat)) : pyarr :=
    match train with None => NotArray | Some l => Dense [length l] end.

  (** np.copy (local_scaling.py:246, 487): [np.array(a, copy=True)] does not
      look inside a sparse matrix *)
  Definition np_copy (A : matarg V) : ndarr V :=
    match A with MDense D => Nd2 D | MSparse Sm => Nd0 Sm end.
  (** [D.shape[0]] (local_scaling.py:488): the shape of a 0-d array is [()] *)
  Definition nd_shape0 (A : ndarr V) : result nat :=
    match A with Nd2 D => Ok (nrow D) | Nd0 _ => Raise IndexError end.
  (** [D[i, train_ind]] (local_scaling.py:255): too many indices for a 0-d array *)
  Definition nd_row (A : ndarr V) (i : nat) (train : list nat) : result (list V) :=
    match A with Nd2 D => Ok (map (at2 D i) train) | Nd0 _ => Raise IndexError end.
  (** [D.getnnz] (local_scaling.py:260): numpy arrays have no such attribute *)
  Definition nd_getnnz (A : ndarr V) : result (list nat) := Raise AttributeError.

  (** local_scaling.py:252-260 and what follows, [sparse] being true.  Line 258
      [lil_matrix(D.shape)] and the code after 260 are left out: line 255
      raises if there is an object, line 260 in any case. *)
  Definition ls_sparse_radii (A : ndarr V) (n : nat) (train : list nat) : result (arr2 V) :=
    let* _ := mapM (fun i => nd_row A i train) (seq 0 n) in
    let* _ := nd_getnnz A in
    Ok (full2 n n n0).

  (** local_scaling.py:174-311 local_scaling for any matrix *)
  Inductive local_scaling_any (A : matarg V) (k : Z) (metric : string) (test : option (list nat))
      (cpu : nat) (n_jobs : Z) : result (arr2 V) -> Prop :=
  | lsa_dense D r : A = MDense D ->
      local_scaling vexp part D k metric test cpu n_jobs r ->
      local_scaling_any A k metric test cpu n_jobs r
  | lsa_sparse Sm : A = MSparse Sm ->
      local_scaling_any A k metric test cpu n_jobs
        (check_distance_matrix_shape (shape_arg A) ;;
         check_valid_metric_parameter metric ;;
         guard (negb (is_sim metric)) NotImplementedError ;;
         ls_sparse_radii (np_copy A) (srow Sm) (ls_train (srow Sm) test)).

  (** local_scaling.py:431-528 nicdm for any matrix; for a sparse one line 488
      is the last that is reached *)
  Inductive nicdm_any (A : matarg V) (k : Z) (metric : string) (test : option (list nat))
      (cpu : nat) (n_jobs : Z) : result (arr2 V) -> Prop :=
  | nia_dense D r : A = MDense D ->
      nicdm vexp vln vsum part D k metric test cpu n_jobs r ->
      nicdm_any A k metric test cpu n_jobs r
  | nia_sparse Sm : A = MSparse Sm ->
      nicdm_any A k metric test cpu n_jobs
        (check_distance_matrix_shape (shape_arg A) ;;
         check_valid_metric_parameter metric ;;
         guard (is_sim metric) NotImplementedError ;;
         let* n := nd_shape0 (np_copy A) in
         Ok (full2 n n n0)).

  (** local_scaling.py:24-138 local_scaling_sample for any arguments: the check
      of line 70, then the dense code *)
  Definition local_scaling_sample_any (A : matarg V) (k : Z) (metric : string)
      (train : option (list nat)) (test : option (list nat)) : result (arr2 V) :=
    check_sample_shape_fits (shape_arg A) (train_arg train) ;;
    match A, train with
    | MDense D, Some t => local_scaling_sample vexp part D k metric t test
    | _, _ => Raise NotImplementedError
    end.

  (** local_scaling.py:313-400 nicdm_sample for any arguments: the check of line
      359, then the dense code *)
  Definition nicdm_sample_any (A : matarg V) (k : Z) (metric : string)
      (train : option (list nat)) (test : option (list nat)) : result (arr2 V) :=
    check_sample_shape_fits (shape_arg A) (train_arg train) ;;
    match A, train with
    | MDense D, Some t => nicdm_sample vexp vln vsum part D k metric t test
    | _, _ => Raise NotImplementedError
    end.

  (** shared_neighbors.py:52-168 snn_sample for any arguments: the check of line
      105, then the dense code *)
  Inductive snn_sample_any (A : matarg V) (k : Z) (metric : string)
      (train : option (list nat)) (test : option (list nat)) (cpu jobs : Z) : result (arr2 V) -> Prop :=
  | ssa_dense D t r : A = MDense D -> train = Some t ->
      snn_sample_jobs argsort cpu jobs D k metric t test r ->
      snn_sample_any A k metric train test cpu jobs r
  | ssa_other : (forall D t, A = MDense D -> train <> Some t) ->
      snn_sample_any A k metric train test cpu jobs
        (check_sample_shape_fits (shape_arg A) (train_arg train) ;; Raise NotImplementedError).
End LSSparse.
