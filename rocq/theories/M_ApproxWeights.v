(** Model of /repo/hub_toolbox/approximate.py, predict with the keyword
    argument knn__weights and with several outputs.

    sklearn's KNeighborsClassifier(algorithm='brute', metric='precomputed'):
    kneighbors takes the first K positions of np.argpartition(row, K-1), ordered
    by np.argsort of their distances; without weights the prediction is
    scipy.stats.mode, else sklearn.utils.extmath.weighted_mode of the labels,
    separately for every output.  Weights given as a
    function: M_ApproxWeightFn.v. *)
From Coq Require Import ZArith List Arith Lia Bool.
From Verif Require Import Py Num Arr Sort M_GK M_Approx M_ApproxPredict.
Import ListNotations.
Local Open Scope py_scope.

(** knn__weights (approximate.py:1360-1363) *)
Inductive weighting := WUniform | WDistance.

Section Weights.
  Context {V : Type} {N : Num V}.
  Variable vsum : list V -> V.
  Variable argpart : list V -> list nat -> list nat.
  Variable argsort : list V -> list nat.

  (** sklearn _get_weights(dist, 'distance') for one query: inverse distances; if
      one of them is infinite, the infinite ones count 1 and the others 0
      (used by the classifiers of approximate.py:1364-1386) *)
  Definition inv_weights (ds : list V) : list V :=
    let inv := map (fun d => ndiv n1 d) ds in
    let isinf v := negb (nisfin v) && negb (nisnan v) in
    if existsb isinf inv then map (fun v => if isinf v then n1 else n0) inv else inv.

  (** sklearn weighted_mode for one query and output: the labels in ascending
      order, a later one replaces the best so far if its weight is larger.  sklearn
      loops over the labels of all queries; a label without votes has weight 0
      and replaces nothing.  [dflt]: class number 0
      (used by the classifiers of approximate.py:1364-1386) *)
  Definition weighted_mode (dflt : Z) (labels : list Z) (ws : list V) : Z :=
    fst (fold_left (fun st c =>
           let count := vsum (map (fun p => nmul (if Z.eqb (fst p) c then n1 else n0) (snd p)) (combine labels ws)) in
           if nlt (snd st) count then (c, count) else st) (unique_labels labels) (dflt, n0)).

  (** sklearn: fit on the labels of the columns (one output), predict one row
      (approximate.py:1364-1386) *)
  Definition knn_row_w (w : weighting) (K : nat) (row : list V) (labels : list Z) : result Z :=
    guard ((K =? 0) || existsb (fun v => negb (nisfin v)) row || (length row <? K)) ValueError ;;
    let nb := firstn K (argpart row [K - 1]) in
    let nb := take 0 nb (argsort (map (vat row) nb)) in
    let lab := map (fun p => nth p labels 0%Z) nb in
    Ok (match w with
        | WUniform => mode lab
        | WDistance => weighted_mode (hd 0%Z (unique_labels labels)) lab (inv_weights (map (vat row) nb))
        end).

  (** approximate.py:1364-1370: fixed vantage points; [ys]: one list of labels per
      output.  The result has one list per query. *)
  Definition predict_fixed_w (w : weighting) (kw : option nat) (D : arr2 V) (ys : list (list Z)) :
      result (list (list Z)) :=
    let* F := finite_dists D in
    let K := match kw with Some k => k | None => 5 end in
    mapM (fun i => mapM (fun y => knn_row_w w K (rowl F i) y) ys) (seq 0 (nrow F)).

  (** approximate.py:1371-1386: a classifier per query, on the labels of its
      candidates [ind i] *)
  Definition predict_index_w (w : weighting) (n_neighbors : nat) (D : arr2 V) (ind : nat -> list nat)
      (ys : list (list Z)) : result (list (list Z)) :=
    let* F := finite_dists D in
    mapM (fun i => mapM (fun y => knn_row_w w n_neighbors (rowl F i) (map (fun a => nth a y 0%Z) (ind i))) ys)
         (seq 0 (nrow F)).
End Weights.
