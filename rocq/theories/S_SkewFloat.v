(** Specification: exact sums of whole numbers, and the power 1.5 with a bounded error. *)
From Coq Require Import ZArith Reals List Permutation.
From Flocq Require Import Core BinarySingleNaN.
From Verif Require Import Num.
Import ListNotations.
Local Open Scope R_scope.

(** the float x is the whole number z *)
Definition whole (x : f64) (z : Z) : Prop := nisfin x = true /\ B2R x = IZR z.

Definition ztotal (l : list Z) : Z := fold_right Z.add 0%Z l.

(** whole numbers are added without error as long as the sum of their absolute
    values is below 2^53 *)
Definition sum_exact (vsum : list f64 -> f64) : Prop :=
  forall l zs, Forall2 whole l zs -> (ztotal (map Z.abs zs) < 2 ^ 53)%Z -> whole (vsum l) (ztotal zs).

(** x is the result of adding the numbers of l in some order, with any placement
    of brackets (left to right, pairwise, blocked, ...) *)
Inductive added_up : list f64 -> f64 -> Prop :=
| au_none : added_up [] n0
| au_one x : added_up [x] x
| au_two l l1 l2 x1 x2 : Permutation l (l1 ++ l2) -> added_up l1 x1 -> added_up l2 x2 -> added_up l (nadd x1 x2).

(** the power 1.5, with relative error at most eps *)
Definition pow15_close (eps : R) (vpow15 : f64 -> f64) : Prop :=
  forall x, nisfin x = true -> bpow radix2 (-60) <= B2R x <= bpow radix2 60 ->
    nisfin (vpow15 x) = true /\
    Rabs (B2R (vpow15 x) - B2R x * sqrt (B2R x)) <= eps * (B2R x * sqrt (B2R x)).
