(** Specification: sum, logarithm and exponential function with a bounded error. *)
From Coq Require Import Reals List Arith Bool.
From Flocq Require Import Core BinarySingleNaN.
From Verif Require Import Num.
Import ListNotations.
Local Open Scope R_scope.

(** sum of real numbers *)
Definition total (l : list R) : R := fold_right Rplus 0 l.

(** np.sum of at most [n] numbers of moderate size: the error is at most [eps]
    times the sum of the absolute values.  (The order of summation does not
    matter: left to right, [eps] is about n * 2^-53, for pairwise summation
    about log2(n) * 2^-53.) *)
Definition sum_close (eps : R) (n : nat) (vsum : list f64 -> f64) : Prop :=
  forall l, (length l <= n)%nat ->
    (forall x, In x l -> nisfin x = true /\ Rabs (B2R x) <= bpow radix2 300) ->
    nisfin (vsum l) = true /\
    Rabs (B2R (vsum l) - total (map B2R l)) <= eps * total (map (fun x => Rabs (B2R x)) l).

(** np.log *)
Definition ln_close (eps : R) (vln : f64 -> f64) : Prop :=
  forall x, nisfin x = true -> 0 < B2R x ->
    nisfin (vln x) = true /\ Rabs (B2R (vln x) - ln (B2R x)) <= eps * (1 + Rabs (ln (B2R x))).

(** np.exp of numbers of moderate size *)
Definition exp_accurate (eps : R) (vexp : f64 -> f64) : Prop :=
  forall x, nisfin x = true -> Rabs (B2R x) <= 300 ->
    nisfin (vexp x) = true /\ Rabs (B2R (vexp x) - exp (B2R x)) <= eps * exp (B2R x).
