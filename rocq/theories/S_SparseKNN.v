(** Specification of nearest neighbours in a sparse similarity matrix and of
    R-precision, independent of the code. *)
From Coq Require Import String.
From Coq Require Import ZArith List Arith Lia Bool.
From Verif Require Import Py Num Arr M_MPEmpiric.
Import ListNotations.

(** object [x] has a stored similarity to object [i] *)
Definition linked {V} (S : smat V) (i x : nat) : Prop := x < scol S /\ exists v, stored S i x = Some v.

(** no stored value of row [i] is NaN or zero *)
Definition clean_row {V} {N : Num V} (S : smat V) (i : nat) : Prop :=
  forall x, linked S i x -> nisnan (sval S i x) = false /\ nonzero (sval S i x) = true.

(** object [i] is strictly more similar to itself than to any other object *)
Definition self_first {V} {N : Num V} (S : smat V) (i : nat) : Prop :=
  linked S i i /\ forall x, linked S i x -> x <> i -> nlt (sval S i x) (sval S i i) = true.

(** [nn] are [m] different candidates such that no other candidate is strictly
    more similar (larger [v]) than a listed one; the first one is most similar *)
Record top_list {V} {N : Num V} (v : nat -> V) (cand : nat -> Prop) (m : nat) (nn : list nat) : Prop := {
  tl_len : length nn = m;
  tl_nodup : NoDup nn;
  tl_in : forall x, In x nn -> cand x;
  tl_best : forall x y, cand x -> ~ In x nn -> In y nn -> nlt (v y) (v x) = false;
  tl_head : forall h x, nth_error nn 0 = Some h -> cand x -> nlt (v h) (v x) = false
}.

(** number of other objects with the label of object [i] *)
Definition relevant (lab : list Z) (i : nat) : nat :=
  length (filter (fun x => negb (x =? i) && (nth x lab 0 =? nth i lab 0)%Z) (seq 0 (length lab))).

(** how many of the listed objects have the label of object [i] *)
Definition hits (lab : list Z) (i : nat) (nn : list nat) : nat :=
  length (filter (fun x => (nth x lab 0 =? nth i lab 0)%Z) nn).

(** number of stored similarities of object [i] to other objects *)
Definition n_linked {V} {N : Num V} (S : smat V) (i : nat) : nat :=
  length (filter (fun x => negb (x =? i) && is_stored S i x) (seq 0 (scol S))).
