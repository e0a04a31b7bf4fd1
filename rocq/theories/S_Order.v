(** Two matrices that rank the neighbours of every object alike. *)
From Coq Require Import String.
From Coq Require Import ZArith List Arith Lia Bool.
From Verif Require Import Py Num Arr S_Neighbors S_Relabel.
Import ListNotations.

(** [D] and [D'] are n x n matrices of n objects, read as [metric] and [metric'];
    object i of [D'] is object [p i] of [D].  All values off the diagonal are
    finite, no object is equally far from two others, and every object ranks the
    others alike in both. *)
Record ranks_alike {V} {N : Num V} (metric metric' : string) (D D' : arr2 V) (n : nat) (p q : nat -> nat) : Prop := {
  ra_dim : nrow D = n /\ ncol D = n /\ nrow D' = n /\ ncol D' = n;
  ra_renaming : renaming n p q;
  ra_finite : forall i x, i < n -> x < n -> x <> i -> nisfin (at2 D i x) = true /\ nisfin (at2 D' i x) = true;
  ra_no_ties : forall i x y, i < n -> x < n -> y < n -> x <> y -> x <> i -> y <> i -> neq (at2 D i x) (at2 D i y) = false;
  ra_order : forall i x y, i < n -> x < n -> y < n -> x <> i -> y <> i ->
    nearer metric' (at2 D' i x) (at2 D' i y) = nearer metric (at2 D (p i) (p x)) (at2 D (p i) (p y))
}.
