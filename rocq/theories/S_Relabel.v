(** Specification of renaming the objects of a data set. *)
From Coq Require Import List Arith Lia.
From Verif Require Import Num Arr.

(** p is a renaming of the objects 0..n-1 and q its inverse: the new object i is
    the old object p i *)
Definition renaming (n : nat) (p q : nat -> nat) : Prop :=
  forall i, i < n -> p i < n /\ q i < n /\ q (p i) = i /\ p (q i) = i.
(** a square matrix after renaming *)
Definition renamed {V} (p : nat -> nat) (D : arr2 V) : arr2 V :=
  Arr2 (nrow D) (ncol D) (fun i j => at2 D (p i) (p j)).
