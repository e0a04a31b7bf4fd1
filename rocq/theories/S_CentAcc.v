(** Column means of a float64 matrix, as real numbers, for C166. *)
From Coq Require Import ZArith List Arith Reals.
From Flocq Require Import Core BinarySingleNaN.
From Verif Require Import Num Arr S_NicdmAcc.
Local Open Scope R_scope.

(** mean of column [f] over the objects [rows] *)
Definition col_mean (X : arr2 f64) (rows : list nat) (f : nat) : R :=
  total (map (fun i => B2R (at2 X i f)) rows) / INR (length rows).
(** mean absolute value of column [f] over the objects [rows] *)
Definition col_mean_abs (X : arr2 f64) (rows : list nat) (f : nat) : R :=
  total (map (fun i => Rabs (B2R (at2 X i f))) rows) / INR (length rows).
(** all entries are numbers of moderate size *)
Definition moderate (z : Z) (X : arr2 f64) : Prop :=
  forall i f, (i < nrow X)%nat -> (f < ncol X)%nat ->
    nisfin (at2 X i f) = true /\ Rabs (B2R (at2 X i f)) <= bpow radix2 z.
