(** Specification for C175: rows of a sparse similarity matrix with stored NaN
    values and stored zeros. *)
From Coq Require Import List Arith Bool.
From Verif Require Import Num M_MPEmpiric S_SparseKNN.
Import ListNotations.

Section Spec.
  Context {V : Type} {N : Num V}.
  (** a stored similarity that is a number (finite or infinite) *)
  Definition known (S : smat V) (i x : nat) : Prop := linked S i x /\ nisnan (sval S i x) = false.
  (** number of stored NaN values in row [i] *)
  Definition n_nan (S : smat V) (i : nat) : nat :=
    length (filter (fun x => is_stored S i x && nisnan (sval S i x)) (seq 0 (scol S))).
  (** how many stored entries precede column [x] in row [i] *)
  Definition rank (S : smat V) (i x : nat) : nat := length (filter (is_stored S i) (seq 0 x)).
  (** the columns of row [i] with a stored value other than zero *)
  Definition nonzero_cols (S : smat V) (i : nat) : list nat :=
    filter (fun x => is_stored S i x && nonzero (sval S i x)) (seq 0 (scol S)).
  (** the object that the similarity stored in column [x] is taken for: the same
      rank, but stored zeros are not counted *)
  Definition blamed (S : smat V) (i x : nat) : nat := nth (rank S i x) (nonzero_cols S i) 0.
  (** there is such an object for every number *)
  Definition readable (S : smat V) (i : nat) : Prop :=
    forall x, known S i x -> rank S i x < length (nonzero_cols S i).
  (** [l] lists the [known] objects of row [i], and no later object is strictly
      more similar than one of the first [t] *)
  Definition best_first (S : smat V) (i t : nat) (l : list nat) : Prop :=
    forall a b, a < t -> t <= b < length l -> nlt (sval S i (nth a l 0)) (sval S i (nth b l 0)) = false.
End Spec.
