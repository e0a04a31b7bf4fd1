(** Specification of calls that leave the caller's arrays alone. *)
From Coq Require Import List Arith.
From Verif Require Import Py Arr Heap.
Import ListNotations.

(** every array that existed in [h] is still there and holds the same values *)
Definition untouched {V} (h h' : heap V) : Prop :=
  forall a, a < length h -> nth_error h' a = nth_error h a.

(** the call returns the value or raises the exception [r], and no array of
    the caller changes *)
Definition pure_value {V A} (call : prog V A) (h : heap V) (r : result A) : Prop :=
  fst (call h) = r /\ untouched h (snd (call h)).

(** the call returns a new array with the contents [r], which is none of the
    arrays of the caller, or raises the exception [r]; no array of the caller
    changes *)
Definition pure_call {V} (call : prog V ref) (h : heap V) (r : result (arr2 V)) : Prop :=
  untouched h (snd (call h)) /\
  match r with
  | Raise e => fst (call h) = Raise e
  | Ok M => exists b M', fst (call h) = Ok b /\ length h <= b /\
                         nth_error (snd (call h)) b = Some M' /\ eq2 M' M
  end.

(** a function on arrays is pure if each of its calls is: for all the arrays
    the caller may hold and the reference [a] they pass *)
Definition pure_function {V} (call : ref -> prog V ref) (f : arr2 V -> result (arr2 V)) : Prop :=
  forall h a D, nth_error h a = Some D -> pure_call (call a) h (f D).
