(** What a metric and an ultrametric are, for C165. *)
From Coq Require Import ZArith List Arith Reals.
From Verif Require Import Py Num NumT Arr.
Local Open Scope R_scope.

(** a metric on the objects 0 .. n-1 *)
Record is_metric (n : nat) (d : nat -> nat -> R) : Prop := {
  im_self : forall i, (i < n)%nat -> d i i = 0;
  im_pos : forall i j, (i < n)%nat -> (j < n)%nat -> i <> j -> 0 < d i j;
  im_sym : forall i j, (i < n)%nat -> (j < n)%nat -> d i j = d j i;
  im_tri : forall i j l, (i < n)%nat -> (j < n)%nat -> (l < n)%nat -> d i j <= d i l + d l j
}.

(** the values of [D] are such that of two sides of a triangle one is at least as long as the
    third; no arithmetic is involved *)
Record is_ultra {V} {N : Num V} (n : nat) (D : nat -> nat -> V) : Prop := {
  iu_sym : forall i j, (i < n)%nat -> (j < n)%nat -> D i j = D j i;
  iu_tri : forall i j l, (i < n)%nat -> (j < n)%nat -> (l < n)%nat ->
             nle (D i j) (D i l) = true \/ nle (D i j) (D l j) = true
}.
