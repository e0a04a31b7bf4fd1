(** Specification for C173: successive draws of a generator, and turns of workers. *)
From Coq Require Import List Arith Permutation.
From Verif Require Import Arr.
Import ListNotations.

(** a generator of permutations *)
Definition generator {G : Type} (perm : nat -> G -> list nat * G) : Prop :=
  forall m g, Permutation (fst (perm m g)) (seq 0 m).
(** the permutation it gives after [t] other ones of the same length *)
Fixpoint draw {G : Type} (perm : nat -> G -> list nat * G) (m t : nat) (g : G) : list nat :=
  match t with
  | 0 => fst (perm m g)
  | S t => draw perm m t (snd (perm m g))
  end.
(** how many rows the worker of row [i] had taken before *)
Definition turn (who : list nat) (i : nat) : nat := count_occ Nat.eq_dec (firstn i who) (nth i who 0).
(** two rows hold the same distances *)
Definition same_row {V} (D : arr2 V) (i j : nat) : Prop := forall x, x < ncol D -> at2 D i x = at2 D j x.
