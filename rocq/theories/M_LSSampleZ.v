(** Model of local scaling and NICDM to a sample (/repo/hub_toolbox/local_scaling.py:24-138
    and 313-400) and of shared neighbours to a sample (shared_neighbors.py:52-168) with arbitrary integers as indices; every access to an array resolves its
    index the way numpy does ([row_at]).  The versions for natural numbers are
    [local_scaling_sample], [nicdm_sample] and [snn_sample]. *)
From Coq Require Import String.
From Coq Require Import ZArith List Arith Lia Bool.
From Verif Require Import Py Num Arr S_Neighbors M_IO M_SNN M_LS M_MPEmpiric M_Predict M_SampleZ.
Import ListNotations.
Local Open Scope py_scope.

Section LSSampleZ.
  Context {V : Type} {N : Num V}.
  Variables (vexp vln : V -> V) (vsum : list V -> V).
  Variable part : list V -> list nat -> list V.

  (** local_scaling.py:115-138 and 385-400, shared_neighbors.py:151-168, the part the
      functions share: the rows of the
      held-out objects, or all rows, then the cells that relate an object to itself.
      [value i j u] is the expression for cell (i, j) where [u] is the row of the j-th
      sampled object. *)
  Definition scaled_rows (n s : nat) (train : list Z) (test : option (list Z))
      (self : V) (value : nat -> nat -> nat -> V) : result (arr2 V) :=
    let* M := foldM (fun M z =>
        let* i := row_at n z in
        let* J := mapM (row_at n) train in
        Ok (setrow M i 0 s (fun j => value i j (nth j J 0))))
      (rows_z n test) (full2 n s n0) in
    match test with
    | None => Ok (fill_diagonal M self)
    | Some _ => let* M := set_self_z train self M in select_z M test
    end.

  (** local_scaling.py:68-138 for a dense array.  Line 95 computes a value that is not used *)
  Definition local_scaling_sample_z (D : arr2 V) (k : Z) (metric : string) (train : list Z)
      (test : option (list Z)) : result (arr2 V) :=
    check_sample_shape_fits (Dense [nrow D; ncol D]) (Dense [length train]) ;;
    check_valid_metric_parameter metric ;;
    guard (is_sim metric) NotImplementedError ;;
    let* dist := set_self_z train ninf D in
    let* r := mapM (ls_radius part dist (seq 0 (ncol D)) (k - 1)%Z) (seq 0 (nrow D)) in
    scaled_rows (nrow D) (ncol D) train test n0 (fun i j u =>
      ls_val vexp metric (at2 dist i j) (nth i r nnan) (nth u r nnan)).

  (** local_scaling.py:359-400 for a dense array *)
  Definition nicdm_sample_z (D : arr2 V) (k : Z) (metric : string) (train : list Z)
      (test : option (list Z)) : result (arr2 V) :=
    check_sample_shape_fits (Dense [nrow D; ncol D]) (Dense [length train]) ;;
    check_valid_metric_parameter metric ;;
    guard (is_sim metric) NotImplementedError ;;
    let* dist := set_self_z train ninf D in
    let* r := mapM (nicdm_radius vsum part dist (seq 0 (ncol D)) k) (seq 0 (nrow D)) in
    scaled_rows (nrow D) (ncol D) train test n0 (fun i j u =>
      nicdm_val (local_geomean vexp vln vsum r) (at2 dist i j) (nth i r nnan) (nth u r nnan)).

  (** np.argsort *)
  Variable argsort : list V -> list nat.

  (** shared_neighbors.py:105-168 with n_jobs = 1 *)
  Definition snn_sample_z (D : arr2 V) (k : Z) (metric : string) (train : list Z)
      (test : option (list Z)) : result (arr2 V) :=
    check_sample_shape_fits (Dense [nrow D; ncol D]) (Dense [length train]) ;;
    check_valid_metric_parameter metric ;;
    let* dist := set_self_z train (snn_exclude metric) D in
    let knn := for_ (nrow D) (fun i K =>
        mark_row K i (prefix (snn_order metric (argsort (rowl dist i))) k))
        (full2 (nrow D) (ncol D) false) in
    scaled_rows (nrow D) (ncol D) train test (snn_self metric) (fun i j u =>
      snn_val metric k (snn_shared (ncol D) (at2 knn i) (at2 knn u))).
End LSSampleZ.
