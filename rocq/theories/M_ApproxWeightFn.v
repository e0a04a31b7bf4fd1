(** Model of /repo/hub_toolbox/approximate.py, predict with a function as keyword
    argument knn__weights.

    sklearn calls the function on the distances of the neighbours and passes what it
    returns to weighted_mode.  Simplifications: for fixed vantage points sklearn calls
    it once, on the matrix of all queries, the model once per query and output (a
    function without state that treats the rows separately); the weights have the
    shape of the distances.  Later versions of scikit-learn reject
    weights that are all zero; the model follows the versions of the time of the
    repository, where weighted_mode decides. *)
From Coq Require Import ZArith List Arith Lia Bool.
From Verif Require Import Py Num Arr Sort M_GK M_Approx M_ApproxPredict M_ApproxWeights.
Import ListNotations.
Local Open Scope py_scope.

Section WeightFn.
  Context {V : Type} {N : Num V}.
  Variable vsum : list V -> V.
  Variable argpart : list V -> list nat -> list nat.
  Variable argsort : list V -> list nat.

  (** sklearn: fit on the labels of the columns (one output), predict one row, votes
      weighted by the function [wf] (approximate.py:1360-1386) *)
  Definition knn_row_f (wf : list V -> result (list V)) (K : nat) (row : list V) (labels : list Z) : result Z :=
    guard ((K =? 0) || existsb (fun v => negb (nisfin v)) row || (length row <? K)) ValueError ;;
    let nb := firstn K (argpart row [K - 1]) in
    let nb := take 0 nb (argsort (map (vat row) nb)) in
    let* ws := wf (map (vat row) nb) in
    Ok (weighted_mode vsum (hd 0%Z (unique_labels labels)) (map (fun p => nth p labels 0%Z) nb) ws).

  (** approximate.py:1364-1370: fixed vantage points *)
  Definition predict_fixed_f (wf : list V -> result (list V)) (kw : option nat) (D : arr2 V) (ys : list (list Z)) :
      result (list (list Z)) :=
    let* F := finite_dists D in
    let K := match kw with Some k => k | None => 5 end in
    mapM (fun i => mapM (fun y => knn_row_f wf K (rowl F i) y) ys) (seq 0 (nrow F)).

  (** approximate.py:1371-1386: a classifier per query, on the labels of its
      candidates [ind i] *)
  Definition predict_index_f (wf : list V -> result (list V)) (n_neighbors : nat) (D : arr2 V) (ind : nat -> list nat)
      (ys : list (list Z)) : result (list (list Z)) :=
    let* F := finite_dists D in
    mapM (fun i => mapM (fun y => knn_row_f wf n_neighbors (rowl F i) (map (fun a => nth a y 0%Z) (ind i))) ys)
         (seq 0 (nrow F)).
End WeightFn.
