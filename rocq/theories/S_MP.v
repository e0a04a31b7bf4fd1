(** Specification of Mutual Proximity counts, independent of the code. *)
From Coq Require Import String.
From Coq Require Import ZArith List Arith Lia Bool.
From Verif Require Import Py Num Arr.
Import ListNotations.

(** number of third points x (x <> i, x <> j) farther from both i and j than d *)
Definition farther_from_both {V} {N : Num V} (D : arr2 V) (n i j : nat) (d : V) : nat :=
  count_if (fun x => negb (x =? i) && negb (x =? j) &&
                     (nlt d (at2 D i x) && nlt d (at2 D j x))) n.

(** number of third points x with similarity to both i and j at most s *)
Definition at_most_similar_to_both {V} {N : Num V} (S : arr2 V) (n i j : nat) (s : V) : nat :=
  count_if (fun x => negb (x =? i) && negb (x =? j) &&
                     (nle (at2 S i x) s && nle (at2 S j x) s)) n.

Definition symmetric {V} (D : arr2 V) : Prop :=
  nrow D = ncol D /\ forall i j, i < nrow D -> j < nrow D -> at2 D i j = at2 D j i.
