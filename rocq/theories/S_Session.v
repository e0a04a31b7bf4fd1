(** Specification: what a caller sees of a sequence of calls on arrays they hold. *)
From Coq Require Import List Arith.
From Verif Require Import Py Arr Heap S_Heap.
Import ListNotations.

(** an answer is an array (a reference) or a value of another kind *)
Definition answer (U : Type) : Type := (ref + U)%type.
(** what the answer should be: the contents of an array, or the value *)
Definition wanted (V U : Type) : Type := (arr2 V + U)%type.

(** [n] arrays existed before; in the heap [h] the answer [r] is the wanted one:
    a new array with the wanted contents, the wanted value, or the exception *)
Definition answers {V U} (n : nat) (h : heap V) (r : result (answer U)) (w : result (wanted V U)) : Prop :=
  match r, w with
  | Ok (inl b), Ok (inl M) => n <= b /\ exists M', nth_error h b = Some M' /\ eq2 M' M
  | Ok (inr x), Ok (inr y) => x = y
  | Raise e, Raise e' => e = e'
  | _, _ => False
  end.

(** the arrays among the answers *)
Definition answer_arrays {U} (rs : list (result (answer U))) : list ref :=
  flat_map (fun r => match r with Ok (inl b) => [b] | _ => [] end) rs.

(** [try: call] : the caller goes on after an exception *)
Definition p_try {V A} (p : prog V A) : prog V (result A) := fun h => (Ok (fst (p h)), snd (p h)).
