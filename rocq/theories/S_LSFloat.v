(** Specification vocabulary for local scaling in float64. *)
From Coq Require Import Reals Bool.
From Flocq Require Import Core BinarySingleNaN.
From Verif Require Import Num.
Local Open Scope R_scope.

(** a distance in float64: a finite number whose sign bit is clear *)
Definition dist64 (x : f64) : Prop := nisfin x = true /\ Bsign x = false.

(** what is asked of np.exp: NaN goes to NaN, and a number that is not positive
    (including -inf) goes into [0, 1] *)
Record exp_ok (vexp : f64 -> f64) : Prop := {
  exp_nan : forall x, nisnan x = true -> nisnan (vexp x) = true;
  exp_neg : forall x, nle x n0 = true -> nle n0 (vexp x) = true /\ nle (vexp x) n1 = true }.

(** the real number that a finite float64 stands for lies between two powers of two *)
Definition within (lo hi : Z) (x : f64) : Prop :=
  bpow radix2 lo <= B2R x <= bpow radix2 hi.

(** NaN, or not negative with the sign bit clear *)
Definition sign_clear (x : f64) : Prop := nisnan x = true \/ Bsign x = false.
