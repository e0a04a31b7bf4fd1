(** Vocabulary for the life cycle of the approximate estimator (C137-C139):
    histories of calls, and what one fit followed by one transform computes. *)
From Coq Require Import String.
From Coq Require Import ZArith List Arith Bool.
From Verif Require Import Py Num Arr M_Dist M_Approx M_ApproxPredict M_Lifecycle.
Import ListNotations.
Local Open Scope py_scope.

Section Spec.
  Context {V : Type} {N : Num V}.
  Variable vsum : list V -> V.
  Variable sdist : string -> nat -> (nat -> V) -> (nat -> V) -> V.
  Variables (vexp : V -> V) (vsf : V -> V -> V -> V).
  Variable vstore : f64 -> V.
  Variable part : list V -> list nat -> list V.
  Variable argpart : list V -> list nat -> list nat.
  Variable P : par.

  (** A call that leaves the fitted data alone: transform, predict, or a fit that
      refuses its argument because it is empty or has values that are not finite. *)
  Definition keeps (c : @call V * bool) : Prop :=
    match fst c with CFit _ X _ => exists e, check_array X = Raise e | _ => True end.
  (** No call of fit in the history ended normally. *)
  Definition no_fit (c : @call V * bool) : Prop :=
    match fst c with CFit _ _ _ => snd c = false | _ => True end.

  (** One-shot result of fitting [X] (with the sample [ind]) and transforming [Z]:
      the functions of which C68-C71 speak.  No history occurs here. *)
  Definition one_shot (ns : nat) (ind : list nat) (X Z : arr2 V) (r : result (arr2 V)) : Prop :=
    let s := the_sample P ind in
    match p_hr P with
    | None => r = (fit_check X ;; sampling_check s (nrow X) ns ;;
                   transform_without_hr sdist (p_metric P) (rows_at X (vantage s (nrow X))) Z)
    | Some h =>
      upper h = "MP"%string /\ mp_fixed sdist vstore (p_metric P) s ns (p_jobs P) X Z r \/
      upper h = "MPG"%string /\ r = mpg_fixed vsum sdist vsf (p_metric P) s ns X Z \/
      upper h = "LS"%string /\ r = ls_fixed vsum sdist vexp part false (p_metric P) (p_k P) s ns X Z \/
      upper h = "NICDM"%string /\ r = ls_fixed vsum sdist vexp part true (p_metric P) (p_k P) s ns X Z \/
      upper h = "DSL"%string /\ r = dsl_fixed vsum sdist argpart (p_metric P) (p_k P) s ns X Z
    end.

  (** The label of every vantage point. *)
  Definition sample_labels (ind : list nat) (X : arr2 V) (y : list Z) : list Z :=
    map (fun a => nth a y 0%Z) (vantage (the_sample P ind) (nrow X)).
  Notation do_fit := (do_fit vsum sdist part argpart P).
  Notation history := (history vsum sdist vexp vsf vstore part argpart P).
  (** the object [s] has been through any history [h1], a successful fit of [X]
      with the sample [ind], and any history [h2] that leaves the fit alone *)
  Definition last_fit (ns0 : nat) (ind : list nat) (X : arr2 V) (y : option (list Z)) (s : est) : Prop :=
    exists h1 s1 s2 h2, history (fresh ns0) h1 s1 /\ do_fit s1 ind X y s2 (Done tt) /\
      history s2 h2 s /\ Forall keeps h2.
  (** what the sampler returns are objects of the data *)
  Definition good_sample (ind : list nat) (X : arr2 V) : Prop := forall j, In j ind -> j < nrow X.

  (** an object with a working fit of [X], then a failed fit of [X'] that was
      accepted as data, then any calls that leave the fit alone *)
  Definition failed_refit (ns0 : nat) (ind : list nat) (X : arr2 V) (y : option (list Z)) (X' : arr2 V) (s : est) : Prop :=
    exists s3 ind' y' s4 e h3, last_fit ns0 ind X y s3 /\ check_array X' = Ok tt /\
      do_fit s3 ind' X' y' s4 (Failed e) /\ history s4 h3 s /\ Forall keeps h3.
End Spec.
