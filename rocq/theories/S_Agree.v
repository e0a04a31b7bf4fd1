(** Specification for C167: distance matrices on which "the k nearest" is
    unambiguous. *)
From Coq Require Import ZArith List Arith.
From Verif Require Import Num Arr.

(** all pairwise distances finite, every object strictly nearer to itself
    than to any other one, no two others equally far *)
Record unambiguous (D : arr2 f64) : Prop := {
  un_square : nrow D = ncol D;
  un_finite : forall i j, i < nrow D -> j < ncol D -> nisfin (at2 D i j) = true;
  un_self : forall i j, i < nrow D -> j < ncol D -> j <> i -> nlt (at2 D i i) (at2 D i j) = true;
  un_ties : forall i x y, i < nrow D -> x < ncol D -> y < ncol D -> x <> i -> y <> i -> x <> y ->
    nlt (at2 D i x) (at2 D i y) = true \/ nlt (at2 D i y) (at2 D i x) = true
}.

(** a rectangular matrix of distances from query to training objects: finite,
    none of them zero, no ties in a row *)
Record unambiguous_queries (D : arr2 f64) : Prop := {
  uq_rect : nrow D <> ncol D;
  uq_finite : forall i j, i < nrow D -> j < ncol D -> nisfin (at2 D i j) = true;
  uq_zero : forall i j, i < nrow D -> j < ncol D -> neq (at2 D i j) n0 = false;
  uq_ties : forall i x y, i < nrow D -> x < ncol D -> y < ncol D -> x <> y ->
    nlt (at2 D i x) (at2 D i y) = true \/ nlt (at2 D i y) (at2 D i x) = true
}.

(** the matrix of pairwise distances of the rows of [X] *)
Definition distances_of (rdist : nat -> (nat -> f64) -> (nat -> f64) -> f64) (X : arr2 f64) : arr2 f64 :=
  Arr2 (nrow X) (nrow X) (fun i j => rdist (ncol X) (at2 X i) (at2 X j)).
