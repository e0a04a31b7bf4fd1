(** How the objects to hold out can be given: nothing, an array of integers or
    a boolean mask.  All the functions below find the remaining objects by
    np.setdiff1d(np.arange(n), ..), which compares values: True is 1 and False
    is 0, and a negative number equals no position. *)
From Coq Require Import String.
From Coq Require Import ZArith List Arith Lia Bool.
From Verif Require Import Py Num Arr M_LS M_Centering M_MPDist.
Import ListNotations.

(** the argument test_ind, test_set_ind or test_set_mask
    (local_scaling.py:248, 490, centering.py:84, 142, global_scaling.py:602, 804) *)
Inductive held : Type :=
| HNone
| HInts (l : list Z)
| HMask (m : list bool).

(** the values of the array, as setdiff1d sees them (local_scaling.py:251, 493,
    centering.py:91, 143, global_scaling.py:605, 807) *)
Definition held_values (h : held) : option (list Z) :=
  match h with
  | HNone => None
  | HInts l => Some l
  | HMask m => Some (map (fun b : bool => if b then 1%Z else 0%Z) m)
  end.
(** the same without negative numbers, which equal no element of [np.arange(n)]
    (local_scaling.py:251, 493, centering.py:91, 143) *)
Definition held_positions (h : held) : option (list nat) :=
  match held_values h with
  | None => None
  | Some l => Some (map Z.to_nat (filter (Z.leb 0) l))
  end.

Section Held.
  Context {V : Type} {N : Num V}.
  Variables (vsum : list V -> V) (vpow : V -> V -> V) (vexp vln : V -> V).
  Variable part : list V -> list nat -> list V.
  Variables vcdf vsf : V -> V -> V -> V.
  Variable vgam : V -> V -> V.

  (** local_scaling.py:174-311 *)
  Definition local_scaling_h D k metric (h : held) cpu n_jobs (r : result (arr2 V)) : Prop :=
    local_scaling vexp part D k metric (held_positions h) cpu n_jobs r.
  (** local_scaling.py:431-528 *)
  Definition nicdm_h D k metric (h : held) cpu n_jobs (r : result (arr2 V)) : Prop :=
    nicdm vexp vln vsum part D k metric (held_positions h) cpu n_jobs r.
  (** centering.py:24-94 *)
  Definition centering_h X metric (h : held) : result (arr2 V) :=
    centering vsum X metric (held_positions h).
  (** centering.py:96-165 *)
  Definition weighted_centering_h X metric gamma (h : held) : result (arr2 V) :=
    weighted_centering vsum vpow X metric gamma (held_positions h).
  (** global_scaling.py:524-673 *)
  Definition gaussi_h D metric sample_size (h : held) idx : result (arr2 V) :=
    gaussi vsum vcdf vsf D metric sample_size (held_values h) idx.
  (** global_scaling.py:743-849 *)
  Definition gammai_h D metric (h : held) : result (arr2 V) :=
    gammai vsum vgam D metric (held_values h).
End Held.
