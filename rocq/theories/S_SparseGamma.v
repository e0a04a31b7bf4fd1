(** Specification for C171: when a Gamma distribution fits known similarities. *)
From Coq Require Import List Reals.
From Verif Require Import Num S_Approx S_MPDist.
Import ListNotations.

(** no Gamma distribution has the mean and the variance of the numbers: there are
    fewer than two of them, they are all equal, or they are negative on average *)
Definition same_values (l : list R) : Prop := forall x y, In x l -> In y l -> x = y.
Definition no_fit (l : list R) : Prop := length l < 2 \/ same_values l \/ (rmean l < 0)%R.
(** an unweighted graph: every known similarity between two objects is the same *)
Definition unweighted (n : nat) (w : nat -> nat -> option R) : Prop :=
  exists c, forall i j x, i < n -> j < n -> i <> j -> w i j = Some x -> x = c.
(** every special function of scipy returns NaN for a NaN argument *)
Definition nan_in_nan_out (gam : xr -> xr -> xr) : Prop := forall a, gam a XNaN = XNaN.
