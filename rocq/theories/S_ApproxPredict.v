(** Specification of the predictions of approximate hubness reduction. *)
From Coq Require Import ZArith List Arith Lia Bool Reals.
From Verif Require Import Py Num NumT Arr.
Import ListNotations.

(** number of votes for a label *)
Definition votes (l : list Z) (c : Z) : nat := count_occ Z.eq_dec l c.
(** the smallest of the most frequent labels *)
Definition elected_label (l : list Z) (c : Z) : Prop :=
  In c l /\ (forall c', votes l c' <= votes l c) /\ forall c', votes l c' = votes l c -> (c <= c')%Z.

(** [top]: the largest finite distance of the matrix, or 1 if none is finite *)
Definition largest_finite (D : arr2 xr) (top : R) : Prop :=
  let cell i j := i < nrow D /\ j < ncol D in
  (exists i j, cell i j /\ at2 D i j = XFin top /\ forall i' j' r, cell i' j' -> at2 D i' j' = XFin r -> (r <= top)%R)
  \/ (top = 1%R /\ forall i j, cell i j -> nisfin (at2 D i j) = false).
(** a distance that is not finite counts as the largest finite one *)
Definition effective (top : R) (d : xr) : R := match d with XFin r => r | _ => top end.
(** [nb]: K different positions below n; none left out is nearer *)
Definition nearest_positions (d : nat -> R) (n K : nat) (nb : list nat) : Prop :=
  length nb = K /\ NoDup nb /\ (forall p, In p nb -> p < n) /\
  forall p q, In p nb -> q < n -> ~ In q nb -> (d p <= d q)%R.
