(** Specification for C174: which permutation of a generator an object gets. *)
From Coq Require Import List Arith ZArith.
From Verif Require Import Num M_MPEmpiric S_SparseKNN.
Import ListNotations.

(** objects are handed out in chunks of 100 consecutive ones; [who c] takes chunk
    [c].  How many objects the worker of object [i] had before: 100 for each
    earlier chunk it took, and the ones before [i] in the same chunk *)
Definition earlier (who : nat -> nat) (i : nat) : nat :=
  100 * length (filter (fun c => who c =? who (i / 100)) (seq 0 (i / 100))) + i mod 100.

(** every object has [m] >= 2 stored similarities, finite and not zero, and shares
    its label with another object *)
Record equal_degrees {V} {N : Num V} (S : smat V) (lab : list Z) (m : nat) : Prop := {
  ed_rows : srow S = length lab;
  ed_cols : scol S = length lab;
  ed_two : 2 <= m;
  ed_deg : forall i, i < length lab -> length (filter (is_stored S i) (seq 0 (scol S))) = m;
  ed_fin : forall i x, i < length lab -> linked S i x -> nisfin (sval S i x) = true /\ nonzero (sval S i x) = true;
  ed_mate : forall i, i < length lab -> relevant lab i <> 0
}.
