(** Model of /repo/hub_toolbox/distances.py: cosine_distance, lp_norm, and of
    the sklearn/scipy pairwise distances that the library calls.

    np.sum and np.power are parameters: exact over [xr], arbitrary functions
    over float64. *)
From Coq Require Import String.
From Coq Require Import ZArith List Arith Lia Bool.
From Verif Require Import Py Num Arr.
Import ListNotations.
Local Open Scope py_scope.

Section Dist.
  Context {V : Type} {N : Num V}.
  Variables (vsum : list V -> V) (vpow : V -> V -> V).

  (** inner product of two rows with [m] entries (used at distances.py:28-37 and centering.py) *)
  Definition vdot (m : nat) (u v : nat -> V) : V :=
    vsum (map (fun f => nmul (u f) (v f)) (seq 0 m)).

  (** [A.dot(B)] for 2-D arrays (used at distances.py:28-37) *)
  Definition matmul (A B : arr2 V) : result (arr2 V) :=
    guard (negb (ncol A =? nrow B)) ValueError ;;
    Ok (Arr2 (nrow A) (ncol B) (fun i j => vdot (ncol A) (at2 A i) (fun f => at2 B f j))).

  (** [np.triu(D, 1)] (used at distances.py:28-37) *)
  Definition triu1 (D : arr2 V) : arr2 V :=
    Arr2 (nrow D) (ncol D) (fun i j => if i <? j then at2 D i j else n0).

  (** distances.py:28-37 cosine_distance *)
  Definition cosine_distance (X : arr2 V) : arr2 V :=
    let n := nrow X in
    let xn i := nsqrt (vsum (map (fun f => nmul (at2 X i f) (at2 X i f)) (seq 0 (ncol X)))) in
    let Y := Arr2 n (ncol X) (fun i f => ndiv (at2 X i f) (xn i)) in
    let D := Arr2 n n (fun i j => nsub n1 (vdot (ncol X) (at2 Y i) (at2 Y j))) in
    let D := mask_value D (fun v => nlt v n0) n0 in
    zip2 nadd (triu1 D) (transpose (triu1 D)).

  (** sklearn's check_array: at least one row and one column, finite entries
      (called by the functions used at distances.py:46-88) *)
  Definition check_array (X : arr2 V) : result unit :=
    guard ((nrow X =? 0) || (ncol X =? 0) ||
           negb (forallb (fun i => forallb (fun f => nisfin (at2 X i f)) (seq 0 (ncol X)))
                         (seq 0 (nrow X)))) ValueError.

  (** sum of squared differences of two rows (used by distances.py:46-88 and centering.py) *)
  Definition sqdist (m : nat) (u v : nat -> V) : V :=
    vsum (map (fun f => nmul (nsub (u f) (v f)) (nsub (u f) (v f))) (seq 0 m)).

  (** sklearn.metrics.pairwise.euclidean_distances(X, Y, squared=True).
      Simplification: sklearn expands the square ([x.x - 2 x.y + y.y], clipped
      at 0); in exact arithmetic that is the same number. (called in centering.py:284-449) *)
  Definition euclidean_distances_sq (X Y : arr2 V) : result (arr2 V) :=
    check_array X ;; check_array Y ;;
    guard (negb (ncol X =? ncol Y)) ValueError ;;
    Ok (Arr2 (nrow X) (nrow Y) (fun i j => sqdist (ncol X) (at2 X i) (at2 Y j))).

  (** absolute value, for distances.py:46-88 *)
  Definition vabs (x : V) : V := if nlt x n0 then nopp x else x.

  (** the three metrics of sklearn.metrics.pairwise_distances used by lp_norm
      (distances.py:78-88) *)
  Definition l1_dist (m : nat) (u v : nat -> V) : V :=
    vsum (map (fun f => vabs (nsub (u f) (v f))) (seq 0 m)).
  (** distances.py:78-88 *)
  Definition l2_dist (m : nat) (u v : nat -> V) : V := nsqrt (sqdist m u v).
  (** distances.py:78-88 *)
  Definition minkowski_dist (p : V) (m : nat) (u v : nat -> V) : V :=
    vpow (vsum (map (fun f => vpow (vabs (nsub (u f) (v f))) p) (seq 0 m))) (ndiv n1 p).

  (** pairwise_distances(X, Y, metric): checks, then all pairs.  Simplification:
      sklearn distributes rows over [n_jobs] workers; the pairs are independent
      and are modelled as computed once each. (distances.py:78-88) *)
  Definition pairwise (d : nat -> (nat -> V) -> (nat -> V) -> V) (X Y : arr2 V) : result (arr2 V) :=
    check_array X ;; check_array Y ;;
    guard (negb (ncol X =? ncol Y)) ValueError ;;
    Ok (Arr2 (nrow X) (nrow Y) (fun i j => d (ncol X) (at2 X i) (at2 Y j))).

  (** distances.py:46-88 lp_norm.  [p < 1] (other than 0) is accepted by the
      toolbox; older scipy versions compute the formula, newer ones reject it.
      The formula is modelled. *)
  Definition lp_norm (X : arr2 V) (Y : option (arr2 V)) (p : option V) : result (arr2 V) :=
    let Y := match Y with None => X | Some Y => Y end in
    match p with
    | None => Raise ValueError
    | Some p =>
        if neq p n1 then pairwise l1_dist X Y
        else if neq p (nofZ 2) then pairwise l2_dist X Y
        else pairwise (minkowski_dist p) X Y
    end.
End Dist.
