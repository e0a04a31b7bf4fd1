(** Specification vocabulary for approximate DisSim Local, independent of the code. *)
From Coq Require Import String.
From Coq Require Import List Arith Reals.
From Verif Require Import Num NumT Arr S_Centering.
Import ListNotations.
Local Open Scope nat_scope.

(** the distance of two real vectors that the metric names *)
Definition distance_of (metric : string) (m : nat) (u v : nat -> R) : R :=
  if String.eqb metric "sqeuclidean" then sqdistR m u v else (1 - cosR m u v)%R.
(** a vector this distance makes sense for: not the zero vector with cosine *)
Definition has_direction (metric : string) (m : nat) (u : nat -> R) : Prop :=
  metric = "cosine"%string -> normR m u <> 0%R.
(** the library distance computes it *)
Definition distance_correct (sdist : string -> nat -> (nat -> xr) -> (nat -> xr) -> xr) (metric : string) (m : nat) : Prop :=
  forall u v, has_direction metric m u -> has_direction metric m v ->
    sdist metric m (fun f => XFin (u f)) (fun f => XFin (v f)) = XFin (distance_of metric m u v).
