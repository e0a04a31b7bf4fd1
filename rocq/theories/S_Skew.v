(** The normal distribution restricted to an interval: its third moment. *)
From Coq Require Import Reals.
From Coquelicot Require Import Coquelicot.
Local Open Scope R_scope.

(** the density of the standard normal distribution, up to its constant factor *)
Definition bell (z : R) : R := exp (- (z * z / 2)).
(** the third moment E[z^3] of the standard normal distribution restricted to [a, b] *)
Definition truncated_third_moment (a b : R) : R :=
  RInt (fun z => z ^ 3 * bell z) a b / RInt bell a b.
