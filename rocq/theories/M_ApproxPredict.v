(** Model of /repo/hub_toolbox/approximate.py, part 3: predict.

    sklearn's KNeighborsClassifier(algorithm='brute', metric='precomputed') with
    weights='uniform', one label per object: rejects distances that are not
    finite, fewer objects than neighbours and no neighbours (ValueError); takes
    the first K positions of np.argpartition(row, K-1); the prediction is
    scipy.stats.mode of their labels.  Not modelled: other weights, several
    outputs, fit without labels. *)
From Coq Require Import ZArith List Arith Lia Bool.
From Verif Require Import Py Num Arr Sort M_Approx.
Import ListNotations.
Local Open Scope py_scope.

(** scipy.stats.mode: the smallest of the most frequent values
    (used by the classifier of approximate.py:1364-1386) *)
Definition mode (l : list Z) : Z :=
  fold_left (fun b c =>
      let nb := count_occ Z.eq_dec l b in let nc := count_occ Z.eq_dec l c in
      if (nb <? nc) || ((nb =? nc) && (c <? b)%Z) then c else b) l (hd 0%Z l).

Section Predict.
  Context {V : Type} {N : Num V}.
  Variable argpart : list V -> list nat -> list nat.

  (** sklearn: fit on the labels of the columns, predict one row
      (called at approximate.py:1364-1386) *)
  Definition knn_predict_row (K : nat) (row : list V) (labels : list Z) : result Z :=
    guard ((K =? 0) || existsb (fun v => negb (nisfin v)) row || (length row <? K)) ValueError ;;
    Ok (mode (map (fun p => nth p labels 0%Z) (firstn K (argpart row [K - 1])))).

  (** approximate.py:1514: enforce_finite_distances on the whole matrix *)
  Definition finite_dists (D : arr2 V) : result (arr2 V) :=
    let* l := enforce_finite (concat (map (fun i => rowl D i) (seq 0 (nrow D)))) in
    Ok (Arr2 (nrow D) (ncol D) (fun i j => nth (i * ncol D + j) l nnan)).

  (** approximate.py:1364-1370: fixed vantage points with the labels [y];
      [kw]: the keyword argument knn__n_neighbors *)
  Definition predict_fixed (kw : option nat) (D : arr2 V) (y : list Z) : result (list Z) :=
    let* F := finite_dists D in
    let K := match kw with Some k => k | None => 5 end in
    mapM (fun i => knn_predict_row K (rowl F i) y) (seq 0 (nrow F)).
  (** approximate.py:1371-1386: a classifier per query, on the labels of its
      candidates [ind i]; lines 1356-1359 read the keyword argument, line 1379
      uses self.n_neighbors *)
  Definition predict_index (kw : option nat) (n_neighbors : nat) (D : arr2 V) (ind : nat -> list nat) (y : list Z) :
      result (list Z) :=
    let* F := finite_dists D in
    mapM (fun i => knn_predict_row n_neighbors (rowl F i) (map (fun a => nth a y 0%Z) (ind i))) (seq 0 (nrow F)).
End Predict.
