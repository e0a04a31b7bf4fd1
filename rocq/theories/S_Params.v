(** Specification vocabulary for the parameters of the approximate estimator. *)
From Coq Require Import String.
From Coq Require Import ZArith List.
From Verif Require Import Py M_Params.
Import ListNotations.

(** two objects agree in all nine named parameters *)
Definition same_named (o o' : params) : Prop :=
  a_hr o' = a_hr o /\ a_k o' = a_k o /\ a_ns o' = a_ns o /\ a_samp o' = a_samp o /\ a_metric o' = a_metric o /\
  a_pred o' = a_pred o /\ a_rs o' = a_rs o /\ a_jobs o' = a_jobs o /\ a_verb o' = a_verb o.
(** ... and in all but n_samples *)
Definition same_but_samples (o o' : params) : Prop :=
  a_hr o' = a_hr o /\ a_k o' = a_k o /\ a_samp o' = a_samp o /\ a_metric o' = a_metric o /\
  a_pred o' = a_pred o /\ a_rs o' = a_rs o /\ a_jobs o' = a_jobs o /\ a_verb o' = a_verb o /\ a_kw o' = a_kw o.

(** the names of the parameters, in the order of the documentation *)
Definition documented : list string :=
  ["hr_algorithm"; "n_neighbors"; "n_samples"; "sampling_algorithm"; "metric"; "predictor"; "random_state"; "n_jobs"; "verbose"]%string.
(** two underscores in a row *)
Definition has_dunder (s : string) : Prop := exists a b, s = (a ++ "__" ++ b)%string.
(** [h] is the part of [key] before its first two underscores in a row, or the whole of it *)
Definition head_of (key h : string) : Prop :=
  h = key /\ ~ has_dunder key \/ exists rest, key = (h ++ "__" ++ rest)%string /\ ~ has_dunder (h ++ "_").
