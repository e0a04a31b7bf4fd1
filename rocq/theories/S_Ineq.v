(** Specification: two measures of inequality as real numbers, and the powers
    1/4 and 4 with a bounded error. *)
From Coq Require Import ZArith Reals List.
From Flocq Require Import Core BinarySingleNaN.
From Verif Require Import Num S_NicdmAcc.
Import ListNotations.
Local Open Scope R_scope.

Definition avg (l : list Z) : R := total (map IZR l) / INR (length l).

(** Robin Hood (Hoover) index: half the mean absolute deviation over the mean *)
Definition robin_hood (l : list Z) : R :=
  total (map (fun x => Rabs (IZR x - avg l)) l) / (2 * total (map IZR l)).

(** Atkinson index with parameter 3/4: one minus the mean of order 1/4 over the mean *)
Definition atkinson (l : list Z) : R :=
  1 - (total (map (fun x => sqrt (sqrt (IZR x))) l) / INR (length l)) ^ 4 / avg l.

(** the powers 1/4 and 4, with relative error at most eps *)
Definition pow_close (eps : R) (vpow : f64 -> f64 -> f64) : Prop :=
  (forall x e, nisfin x = true -> 0 <= B2R x <= bpow radix2 53 -> nisfin e = true -> B2R e = / 4 ->
     nisfin (vpow x e) = true /\
     Rabs (B2R (vpow x e) - sqrt (sqrt (B2R x))) <= eps * sqrt (sqrt (B2R x))) /\
  (forall x e, nisfin x = true -> bpow radix2 (-60) <= B2R x <= bpow radix2 60 -> nisfin e = true -> B2R e = 4 ->
     nisfin (vpow x e) = true /\
     Rabs (B2R (vpow x e) - B2R x ^ 4) <= eps * B2R x ^ 4).
