(** Specification of shared nearest neighbours, independent of the code. *)
From Coq Require Import String.
From Coq Require Import ZArith List Arith Lia Bool.
From Verif Require Import Py Num Arr S_Neighbors.
Import ListNotations.

(** [nn] is a set of [k] best candidates out of [0..m-1] (any order) *)
Record kset (better : nat -> nat -> bool) (m k : nat) (nn : list nat) : Prop := {
  ks_len : length nn = k;
  ks_nodup : NoDup nn;
  ks_range : forall x, In x nn -> x < m;
  ks_best : forall x y, x < m -> ~ In x nn -> In y nn -> better x y = false
}.

(** size of the intersection of two duplicate-free lists *)
Definition overlap (a b : list nat) : nat :=
  length (filter (fun x => existsb (Nat.eqb x) b) a).

(** the value under which candidate [x] competes for object [i]: the object
    itself comes last *)
Definition rank_value {V} {N : Num V} (metric : string) (D : arr2 V) (i x : nat) : V :=
  if x =? i then worst metric else at2 D i x.

(** the same in a sampled matrix, where column [x] is the object [train_x] *)
Definition rank_value_s {V} {N : Num V} (metric : string) (D : arr2 V) (train : list nat)
    (i x : nat) : V :=
  if nth x train 0 =? i then worst metric else at2 D i x.
