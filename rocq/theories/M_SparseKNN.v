(** Model of /repo/hub_toolbox/knn_classification.py for scipy CSR matrices:
    score 25-255 (sparse branches) and r_precision 455-644. *)
From Coq Require Import String.
From Coq Require Import ZArith List Arith Lia Bool.
From Verif Require Import Py Num Arr Sort S_Neighbors M_IO M_GK M_SNN M_KNN M_MPEmpiric.
Import ListNotations.
Local Open Scope py_scope.

Section SparseKNN.
  Context {V : Type} {N : Num V}.
  Variable argpart : list V -> list nat -> list nat.

  (** [row.indices] of [S.getrow(i)] (canonical CSR: sorted, unique columns)
      (knn_classification.py:174, 479) *)
  Definition sp_cols (S : smat V) (i : nat) : list nat := filter (is_stored S i) (seq 0 (scol S)).
  (** [row.data], in the same order (knn_classification.py:190, 483) *)
  Definition sp_data (S : smat V) (i : nat) : list V := map (sval S i) (sp_cols S i).
  (** [row.nonzero()[1]]: scipy leaves out stored zeros (knn_classification.py:201, 497) *)
  Definition sp_nz (S : smat V) (i : nat) : list nat := filter (fun j => nonzero (sval S i j)) (sp_cols S i).

  (** knn_classification.py:191-198 and 484-491: one partition position per k and
      the last two, clipped with np.clip (whose upper bound wins).  np.unique is
      left out: the contract of argpartition only looks at membership. *)
  Definition sp_kth (nnz : nat) (ks : list Z) : list Z :=
    map (fun x => Z.min (Z.max x 0) (Z.of_nat nnz - 1))
        (map (fun k => (Z.of_nat nnz - k - 1)%Z) ks ++ [Z.of_nat nnz - 2; Z.of_nat nnz - 1]%Z).

  (** knn_classification.py:188-201 and 480-497: columns of the stored entries,
      most similar first as far as the partition goes; [rp] is the drawn
      permutation of 0..nnz-1; NaN values are left out.  Fancy indexing past the
      end of the non-zero columns raises IndexError. *)
  Definition sp_ranked (S : smat V) (i : nat) (rp : list nat) (ks : list Z) : result (list nat) :=
    let d2 := take nnan (sp_data S i) rp in
    let* p := np_argpartition argpart d2 (sp_kth (length (sp_cols S i)) ks) in
    let p := rev (filter (fun a => negb (nisnan (nth a d2 nnan))) p) in
    let pos := take 0 rp p in
    guard (existsb (fun x => length (sp_nz S i) <=? x) pos) IndexError ;;
    Ok (take 0 (sp_nz S i) pos).

  (** Random draws: [rp i l] permutes l = 0..nnz-1 for point i, [sh i j] is the
      permutation drawn when no value is finite. *)
  Variable rp : nat -> list nat -> list nat.
  Variable sh : nat -> nat -> list nat -> list nat.

  (** knn_classification.py:215, 501: [row.toarray()] *)
  Definition sp_row (S : smat V) (i : nat) : list V := map (sval S i) (seq 0 (scol S)).

  (** knn_classification.py:171-246 for one point of a sparse matrix.  The
      metric is not looked at.  [n_cl] counts the classes and the additional
      class "unknown" (lines 144-147). *)
  Definition sp_point (S : smat V) (ks : list Z) (n_cl : nat) (vclasses : list nat) (i : nat) :
      result (list nat) :=
    let* l := sp_ranked S i (rp i (seq 0 (length (sp_cols S i)))) ks in
    Ok (map (fun nn => knn_vote n_cl (take 0 vclasses nn))
            (knn_voters (sp_row S i) (sh i) 0 ks (tl l))).

  (** knn_classification.py:25-255 score, sparse [D].  A sample is refused by
      check_sample_shape_fits, so that the code after the checks only sees
      sample_idx = None; [test] are non-negative indices. *)
  Definition score_sparse (S : smat V) (target : list Z) (ks : list Z) (metric : string)
      (test sample : option (list nat)) : result (list (@kst V)) :=
    match sample with
    | None => check_distance_matrix_shape (Sparse (srow S) (scol S))
    | Some s => check_sample_shape_fits (Sparse (srow S) (scol S)) (Dense [length s])
    end ;;
    check_distance_matrix_shape_fits_labels (Sparse (srow S) (scol S)) (Dense [length target]) ;;
    check_valid_metric_parameter metric ;;
    let n := match test with None => srow S | Some t => length t end in
    let points := match test with None => seq 0 (srow S) | Some t => t end in
    let cl := unique_labels target in
    guard (length cl =? 0) ValueError ;;   (* cl.max() of an empty array *)
    let classes := map (class_index cl) target in
    guard (existsb (fun i => srow S <=? i) points) IndexError ;;
    let* preds := mapM (sp_point S ks (length cl + 1) classes) points in
    Ok (fold_left (fun st ip => zip_upd n (fst ip) (nth (fst ip) classes 0) (snd ip) st)
          (combine points preds) (map (fun _ => kst0) ks)).

  (** ** R-precision *)

  (** knn_classification.py:589: [np.array([np.nan]).astype(int)] is the smallest int64 *)
  Definition int_min : Z := (- 2 ^ 63)%Z.

  (** knn_classification.py:468-528 _r_prec_worker: precision of object i and
      the labels of [yp] of its neighbours (encoded labels; [incorrect] where
      there is none).  [rel] are the relevant items per class.  The division
      is numpy's int / int. *)
  Definition rprec_worker (S : smat V) (y : list nat) (rel : list Z) (yp incorrect : nat) (i : nat) :
      result (V * list nat) :=
    let c := nth i y 0 in
    let R := nth c rel 0%Z in
    let none := repeat incorrect yp in
    if (R =? 0)%Z then Ok (n0, none) else
    let* l := sp_ranked S i (rp i (seq 0 (length (sp_cols S i)))) [R] in
    let idx := prefix (tl l) R in
    let idx := match filter (fun x => nisfin (sval S i x)) idx with [] => sh i 0 idx | _ => idx end in
    let yy := take 0 y idx in
    let hits := length (filter (fun c' => c' =? c) yy) in
    if hits =? 0 then Ok (n0, none)
    else let cur := firstn yp yy in
         Ok (ndiv (nofnat hits) (nofZ R), cur ++ skipn (length cur) none).

  (** knn_classification.py:638-644 *)
  Record rp_out := RpOut { rp_macro : V; rp_weighted : V; rp_item : list V;
                           rp_relevant : list Z; rp_true : list nat; rp_pred : list (list Z) }.

  (** numpy's floating point sum *)
  Variable vsum : list V -> V.

  (** knn_classification.py:530-644 r_precision.  Each task only returns its
      own result and [imap] delivers them in order, so that the schedule can
      only influence the random draws, which are arbitrary here; n_jobs and
      verbose do not occur.  [average] is ignored by the code.  [dense] is
      [not issparse(S)]. *)
  Definition r_precision (dense : bool) (S : smat V) (target : list Z) (metric : string) (yp : nat) :
      result rp_out :=
    let shape := if dense then Dense [srow S; scol S] else Sparse (srow S) (scol S) in
    check_distance_matrix_shape shape ;;
    check_distance_matrix_shape_fits_labels shape (Dense [length target]) ;;
    check_valid_metric_parameter metric ;;
    guard (negb (is_sim metric) || dense) NotImplementedError ;;
    let cl := unique_labels (target ++ [int_min]) in
    let y := map (class_index cl) target in
    let rel := map (fun c => (Z.of_nat c - 1)%Z) (bincount y 0) in
    let* rs := mapM (rprec_worker S y rel yp (class_index cl int_min)) (seq 0 (srow S)) in
    let item := map fst rs in
    let w := map (fun c => nth c rel 0%Z) y in
    guard (fold_right Z.add 0%Z w =? 0)%Z ZeroDivisionError ;;
    Ok (RpOut (ndiv (vsum item) (nofnat (srow S)))
              (ndiv (vsum (map (fun i => nmul (nth i item nnan) (nofZ (nth i w 0%Z))) (seq 0 (srow S))))
                    (nofZ (fold_right Z.add 0%Z w)))
              item rel y
              (map (fun r => map (fun c => nth c cl 0%Z) (snd r)) rs)).
End SparseKNN.
Arguments RpOut {V}. Arguments rp_macro {V}. Arguments rp_weighted {V}. Arguments rp_item {V}.
Arguments rp_relevant {V}. Arguments rp_true {V}. Arguments rp_pred {V}.
