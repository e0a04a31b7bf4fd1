(** Secondary distances that are computed from secondary distances: any number of
    calls of mutual_proximity_empiric, shared_nearest_neighbors, local_scaling and
    nicdm in float64, each on the result of the one before.  All calls are on
    dense distances without held-out objects. *)
From Coq Require Import String.
From Coq Require Import ZArith List Arith Lia Bool.
From Verif Require Import Py Num Arr S_LS M_SNN M_LS M_MPEmpiric.
Import ListNotations.

(** the calls (global_scaling.py:194, shared_neighbors.py:199, local_scaling.py:174, 431) *)
Inductive scaling : Type := SMp | SSnn (k : nat) | SLs (k : nat) | SNicdm (k : nat).

Section Chain.
  Variables (vexp vln : f64 -> f64) (vsum : list f64 -> f64).
  Variable part : list f64 -> list nat -> list f64.
  Variable argpart : list f64 -> list nat -> list nat.

  (** the outcomes of one call, with any number of jobs (global_scaling.py:194-299,
      shared_neighbors.py:199-295, local_scaling.py:174-311, 431-528) *)
  Definition call (c : scaling) (D : arr2 f64) (r : result (arr2 f64)) : Prop :=
    match c with
    | SMp => r = mp_empiric_full D "distance" TNone
    | SSnn k => r = snn_serial argpart D (Z.of_nat k) "distance" \/
                snn_parallel argpart D (Z.of_nat k) "distance" r
    | SLs k => exists cpu n_jobs, (1 <= workers cpu n_jobs)%Z /\
                 local_scaling vexp part D (Z.of_nat k) "distance" None cpu n_jobs r
    | SNicdm k => exists cpu n_jobs, nicdm vexp vln vsum part D (Z.of_nat k) "distance" None cpu n_jobs r
    end.

  (** a program that calls one after the other; an exception ends it
      (hubness_analysis.py:355-372 makes one such call) *)
  Inductive chain (D : arr2 f64) : list scaling -> result (arr2 f64) -> Prop :=
  | ch_nil : chain D [] (Ok D)
  | ch_ok c l D' r : call c D (Ok D') -> chain D' l r -> chain D (c :: l) r
  | ch_raise c l e : call c D (Raise e) -> chain D (c :: l) (Raise e).
End Chain.
