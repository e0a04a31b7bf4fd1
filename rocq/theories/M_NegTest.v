(** Model of /repo/hub_toolbox/knn_classification.py: score (25-255), dense [D], with a
    [test_set_ind] that may contain negative numbers.  For non-negative ones see [score]
    of M_KNN.v. *)
From Coq Require Import String.
From Coq Require Import ZArith List Arith Lia Bool.
From Verif Require Import Py Num Arr Sort S_Neighbors M_IO M_GK M_SNN M_KNN.
Import ListNotations.
Local Open Scope py_scope.

(** numpy's reading of an index into an axis of length [n]: [classes[i]], [D[i, :]],
    [row[i]], [corr[j, i]] (knn_classification.py:171, 176, 178, 239, 245) *)
Definition np_index (n : nat) (i : Z) : result nat :=
  if ((i <? - Z.of_nat n) || (Z.of_nat n <=? i))%Z then Raise IndexError
  else Ok (Z.to_nat (if (i <? 0)%Z then Z.of_nat n + i else i)).

Section NegTest.
  Context {V : Type} {N : Num V}.
  Variable argsort : list V -> list nat.
  Variable rp : nat -> list nat -> list nat.
  Variable sh : nat -> nat -> list nat -> list nat.

  (** [np.setdiff1d(np.arange(n), test_set_ind)] compares the numbers as they are
      given (knn_classification.py:121-123) *)
  Definition train_set (t : list Z) : list nat :=
    filter (fun x => negb (existsb (Z.eqb (Z.of_nat x)) t)) (seq 0 (length t)).

  (** knn_classification.py:25-255 with [sample_idx=None]; the random choices are
      named after the object, not after its index *)
  Definition score_z (D : arr2 V) (target : list Z) (ks : list Z) (metric : string) (t : list Z)
      : result (list (@kst V)) :=
    check_distance_matrix_shape (Dense [nrow D; ncol D]) ;;
    check_distance_matrix_shape_fits_labels (Dense [nrow D; ncol D]) (Dense [length target]) ;;
    check_valid_metric_parameter metric ;;
    let n := length t in
    let cl := unique_labels target in
    let classes := map (class_index cl) target in
    let cand := train_set t in
    let* points := mapM (np_index (nrow D)) t in
    guard (existsb (fun x => ncol D <=? x) cand) IndexError ;;
    Ok (fold_left (fun st i =>
          zip_upd n i (nth i classes 0)
            (knn_point argsort rp sh metric false D ks (length cl) classes cand i) st)
        points (map (fun _ => kst0) ks)).
End NegTest.
