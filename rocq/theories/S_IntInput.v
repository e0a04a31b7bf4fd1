(** Specification: nearest neighbours for integer distances or similarities *)
From Coq Require Import String.
From Coq Require Import ZArith List Arith Bool.
From Verif Require Import Arr S_Neighbors.

(** object [x] is a nearer neighbour of [i] than [y]; [i] itself comes last *)
Definition int_nearer (metric : string) (D : arr2 Z) (i x y : nat) : bool :=
  negb (x =? i) && ((y =? i) || (if is_sim metric then at2 D i y <? at2 D i x else at2 D i x <? at2 D i y)%Z).
