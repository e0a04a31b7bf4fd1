(** Specification: which objects an argument of held-out objects stands for. *)
From Coq Require Import ZArith List Arith Lia Bool.
From Verif Require Import M_Holdout.
Import ListNotations.

(** a mask with at least one marked and at least one unmarked object *)
Definition marks_some (m : list bool) : Prop := In true m /\ In false m.
(** the objects a mask marks, as positions *)
Definition marked (m : list bool) : list Z :=
  map Z.of_nat (filter (fun i => nth i m false) (seq 0 (length m))).
(** the position an index stands for in an array of n objects: negative ones
    count from the end *)
Definition python_position (n : nat) (z : Z) : Z := if (z <? 0)%Z then (z + Z.of_nat n)%Z else z.
