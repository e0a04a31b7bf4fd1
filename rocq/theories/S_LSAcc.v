(** Specification: an exponential function with absolute error [eps] on the
    numbers that are not positive. *)
From Coq Require Import Reals Bool.
From Flocq Require Import Core BinarySingleNaN.
From Verif Require Import Num.
Local Open Scope R_scope.

Record exp_close (eps : R) (vexp : f64 -> f64) : Prop := {
  ec_fin : forall x, nisfin x = true -> B2R x <= 0 ->
    nisfin (vexp x) = true /\ 0 <= B2R (vexp x) <= 1 /\ Rabs (B2R (vexp x) - exp (B2R x)) <= eps;
  ec_inf : nisfin (vexp nninf) = true /\ 0 <= B2R (vexp nninf) <= 1 /\ B2R (vexp nninf) <= eps }.
