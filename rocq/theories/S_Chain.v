(** Specification: which chains of secondary distances are safe. *)
From Coq Require Import ZArith Reals List Arith Lia Bool.
From Flocq Require Import Core BinarySingleNaN.
From Verif Require Import Py Num Arr S_LS S_LSFloat M_Chain.
Import ListNotations.
Local Open Scope nat_scope.

(** the neighbourhood sizes fit *)
Definition size_of (c : scaling) : nat := match c with SMp => 1 | SSnn k | SLs k | SNicdm k => k end.
Definition sizes_fit (n : nat) (l : list scaling) : Prop := forall c, In c l -> 0 < size_of c < n.

(** Every local_scaling and every nicdm comes after a Mutual Proximity, with nothing
    in between but nicdm, at most twice.  [since]: None, or the number of nicdm
    since the last Mutual Proximity. *)
Fixpoint safe (since : option nat) (l : list scaling) : Prop :=
  match l with
  | [] => True
  | SMp :: l => safe (Some 0) l
  | SSnn _ :: l => safe None l
  | SLs _ :: l => match since with Some m => m <= 2 /\ safe None l | None => False end
  | SNicdm _ :: l => match since with Some m => m <= 2 /\ safe (Some (S m)) l | None => False end
  end.

(** a proper distance matrix: square, all entries finite and not negative,
    symmetric, zero diagonal *)
Definition proper (n : nat) (M : arr2 f64) : Prop :=
  nrow M = n /\ ncol M = n /\
  (forall i j, i < n -> j < n -> nisfin (at2 M i j) = true /\ nle n0 (at2 M i j) = true) /\
  (forall i j, i < n -> j < n -> same (at2 M i j) (at2 M j i) = true) /\
  (forall i, i < n -> neq (at2 M i i) n0 = true).
