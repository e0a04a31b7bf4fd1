(** Specification for calls on sparse matrices in memory (C169). *)
From Coq Require Import List Arith.
From Verif Require Import Py Num M_MPEmpiric.
Import ListNotations.

(** every matrix that existed before still exists and is the same *)
Definition kept {V} (h h' : list (smat V)) : Prop :=
  forall a A, nth_error h a = Some A -> nth_error h' a = Some A.

(** the same shape and the same stored entries *)
Definition same_matrix {V} (A B : smat V) : Prop :=
  srow A = srow B /\ scol A = scol B /\ forall i j, i < srow A -> j < scol A -> stored A i j = stored B i j.

(** the call raised the exception it should raise, or returned a new matrix with
    the contents it should have *)
Definition delivers {V} (h h' : list (smat V)) (r : result nat) (v : result (smat V)) : Prop :=
  match r, v with
  | Ok a, Ok M => length h <= a /\ exists M', nth_error h' a = Some M' /\ same_matrix M' M
  | Raise e, Raise e' => e = e'
  | _, _ => False
  end.
