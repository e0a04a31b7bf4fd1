(** Specification vocabulary for candidate rows supplied by an index. *)
From Coq Require Import List Arith.
From Verif Require Import Num.
Import ListNotations.

(** a row of length k: first the elements of l, then x again and again *)
Definition extended {A} (k : nat) (l : list A) (x : A) : list A := l ++ repeat x (k - length l).
(** m is an element of l and none is larger *)
Definition largest {V} {N : Num V} (l : list V) (m : V) : Prop := In m l /\ forall x, In x l -> nle x m = true.
Definition no_nan {V} {N : Num V} (l : list V) : Prop := forall x, In x l -> nisnan x = false.
(** np.searchsorted(a, v, side='right') on a sorted row without NaN: the entries
    before the returned position are <= v, those from there on are larger *)
Definition searchr_ok {V} {N : Num V} (s : list V -> V -> nat) : Prop :=
  forall l v, no_nan (v :: l) -> (forall p q d, p <= q -> q < length l -> nle (nth p l d) (nth q l d) = true) ->
    s l v <= length l /\
    (forall p d, p < s l v -> nle (nth p l d) v = true) /\ (forall p d, s l v <= p -> p < length l -> nlt v (nth p l d) = true).
(** an exact index: [nb] lists k different elements of [pool], nearest first by
    the distance [d], and none of [pool] left out is nearer than a listed one *)
Definition nearest_first {V} {N : Num V} (d : nat -> V) (pool : list nat) (k : nat) (nb : list nat) : Prop :=
  length nb = k /\ NoDup nb /\ incl nb pool /\
  (forall p q, p <= q -> q < k -> nle (d (nth p nb 0)) (d (nth q nb 0)) = true) /\
  (forall a l, In a nb -> In l pool -> ~ In l nb -> nle (d a) (d l) = true).
