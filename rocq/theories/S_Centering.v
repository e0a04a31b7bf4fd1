(** Vocabulary for statements about vector data: real vectors are functions
    from feature numbers to reals, a data set is a function from row numbers to
    vectors.  Independent of the model. *)
From Coq Require Import Reals List Arith Bool.
From Verif Require Import Num NumT Arr.
Import ListNotations.
Local Open Scope R_scope.

(** the float array with [n] rows and [m] columns holding the reals [x] *)
Definition rmat (n m : nat) (x : nat -> nat -> R) : arr2 xr := Arr2 n m (fun i f => XFin (x i f)).

(** inner product, squared distance, length, cosine similarity in [m] dimensions *)
Definition dotR (m : nat) (u v : nat -> R) : R := rsum (map (fun f => u f * v f) (seq 0 m)).
Definition sqdistR (m : nat) (u v : nat -> R) : R :=
  rsum (map (fun f => (u f - v f) * (u f - v f)) (seq 0 m)).
Definition normR (m : nat) (u : nat -> R) : R := sqrt (dotR m u u).
Definition cosR (m : nat) (u v : nat -> R) : R := dotR m u v / (normR m u * normR m v).

(** mean vector of some rows *)
Definition centroidR (x : nat -> nat -> R) (rows : list nat) (f : nat) : R :=
  rsum (map (fun i => x i f) rows) / INR (length rows).

(** difference of vectors *)
Definition vminus (u v : nat -> R) (f : nat) : R := u f - v f.

(** power of a non-negative real, with 0^0 = 1 *)
Definition powR (b g : R) : R :=
  if Req_EM_T g 0 then 1 else if Req_EM_T b 0 then 0 else Rpower b g.

(** [l] lists [k] different elements of [pool], and no element of [pool]
    outside [l] comes before an element of [l] in the order [le] of scores *)
Definition top_k (le : R -> R -> Prop) (score : nat -> R) (pool : list nat) (k : nat) (l : list nat) : Prop :=
  length l = k /\ NoDup l /\ incl l pool /\
  forall a b, In a l -> In b pool -> ~ In b l -> le (score a) (score b).

(** a vector scaled to length one; the zero vector stays zero *)
Definition unitR (m : nat) (u : nat -> R) (f : nat) : R :=
  if Req_EM_T (dotR m u u) 0 then 0 else u f / normR m u.
