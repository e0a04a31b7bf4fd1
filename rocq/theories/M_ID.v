(** Model of /repo/hub_toolbox/intrinsic_dimension.py *)
From Coq Require Import String.
From Coq Require Import ZArith List Arith Lia Bool.
From Verif Require Import Py Num Arr M_GK M_MPDist.
Import ListNotations.
Local Open Scope py_scope.

Section ID.
  Context {V : Type} {N : Num V}.
  (** np.sum, np.log, np.sort *)
  Variable vsum : list V -> V.
  Variable vln : V -> V.
  Variable sort : list V -> list V.

  (** intrinsic_dimension.py:90: [X[np.lexsort(...)]]; [order] is the result of
      lexsort.  The lexicographic order itself is not modelled: [order] is any
      permutation of the rows.  No row is removed. *)
  Definition id_rows (order : list nat) (X : arr2 V) : arr2 V :=
    Arr2 (nrow X) (ncol X) (fun i f => at2 X (nth i order 0) f).

  (** [X.mean(axis=0)], [X.var(axis=0)] (intrinsic_dimension.py:95-100) *)
  Definition col_mean (X : arr2 V) (f : nat) : V :=
    ndiv (vsum (map (fun i => at2 X i f) (seq 0 (nrow X)))) (nofnat (nrow X)).
  (** intrinsic_dimension.py:96, 100 *)
  Definition col_var (X : arr2 V) (f : nat) : V :=
    ndiv (vsum (map (fun i => let c := nsub (at2 X i f) (col_mean X f) in nmul c c) (seq 0 (nrow X))))
         (nofnat (nrow X)).
  (** intrinsic_dimension.py:95, 99 *)
  Definition id_center (X : arr2 V) : arr2 V :=
    Arr2 (nrow X) (ncol X) (fun i f => nsub (at2 X i f) (col_mean X f)).

  (** intrinsic_dimension.py:92-102 *)
  Definition id_trafo (trafo : option string) (X : arr2 V) : result (arr2 V) :=
    match trafo with
    | None => Ok X
    | Some t =>
        let Xc := id_center X in
        if String.eqb t "var" then
          Ok (Arr2 (nrow X) (ncol X) (fun i f => ndiv (at2 Xc i f) (nadd (col_var Xc f) tiny)))
        else if String.eqb t "std" then
          Ok (Arr2 (nrow X) (ncol X) (fun i f => ndiv (at2 Xc i f) (nadd (nsqrt (col_var Xc f)) tiny)))
        else Raise ValueError
    end.

  (** np.dot of two rows; intrinsic_dimension.py:105 [X2] is the dot product of a row
      with itself *)
  Definition id_dot (X : arr2 V) (i j : nat) : V :=
    vsum (map (fun f => nmul (at2 X i f) (at2 X j f)) (seq 0 (ncol X))).
  (** intrinsic_dimension.py:108 (whole matrix) and 116 (row by row) *)
  Definition id_dist (whole : bool) (X : arr2 V) (i j : nat) : V :=
    nsub (nadd (id_dot X i i) (id_dot X j j))
         (nmul (nofZ 2) (if whole then id_dot X i j else id_dot X j i)).
  (** intrinsic_dimension.py:111, 118 *)
  Definition id_valid (v : V) : V := if nle v n0 then tiny else v.
  (** intrinsic_dimension.py:108-112, 116-119: [knnmatrix[i, t]] *)
  Definition id_knn (whole : bool) (X : arr2 V) (i t : nat) : V :=
    nmul half (vln (id_valid (nth (t + 1) (sort (map (id_dist whole X i) (seq 0 (nrow X)))) nnan))).

  (** intrinsic_dimension.py:143: [np.cumsum(knnmatrix, 1)], one row *)
  Fixpoint cumsum (a : nat -> V) (t : nat) : V :=
    match t with
    | O => a 0
    | S t' => nadd (cumsum a t') (a t)
    end.
  (** intrinsic_dimension.py:144-145: entry of [dhat] for neighbourhood size [k] *)
  Definition dhat (L : nat -> V) (k : nat) : V :=
    ndiv (nofZ (2 - Z.of_nat k)) (nsub (cumsum L (k - 1)) (nmul (L (k - 1)) (nofnat k))).

  (** intrinsic_dimension.py:143-154; [x ** -1] is [1 / x] *)
  Definition id_levina (L : nat -> nat -> V) (n k1 k2 : nat) : V :=
    let ks := seq k1 (k2 + 1 - k1) in
    ndiv (vsum (flat_map (fun i => map (dhat (L i)) ks) (seq 0 n))) (nofnat (n * length ks)).
  (** intrinsic_dimension.py:149-153 *)
  Definition id_mackay (L : nat -> nat -> V) (n k1 k2 : nat) : V :=
    let ks := seq k1 (k2 + 1 - k1) in
    let dhat_k k := ndiv (vsum (map (fun i => ndiv n1 (dhat (L i) k)) (seq 0 n))) (nofnat n) in
    ndiv (vsum (map (fun k => ndiv n1 (dhat_k k)) ks)) (nofnat (length ks)).

  (** intrinsic_dimension.py:24-154 *)
  Definition intrinsic_dimension (order : list nat) (X : arr2 V) (k1 k2 : Z)
      (estimator metric : string) (trafo : option string) (mem_threshold : Z) : result V :=
    let n := nrow X in
    guard (negb (String.eqb estimator "levina" || String.eqb estimator "mackay")) ValueError ;;
    guard ((k1 <? 1)%Z || (k2 <? k1)%Z || (Z.of_nat n <=? k2)%Z) ValueError ;;
    if String.eqb metric "vector" then
      let* X := id_trafo trafo (id_rows order X) in
      let L := id_knn (Z.of_nat n <=? mem_threshold)%Z X in
      Ok (if String.eqb estimator "levina" then id_levina L n (Z.to_nat k1) (Z.to_nat k2)
          else id_mackay L n (Z.to_nat k1) (Z.to_nat k2))
    else if String.eqb metric "distance" || String.eqb metric "similarity" then Raise NotImplementedError
    else Raise ValueError.
End ID.
