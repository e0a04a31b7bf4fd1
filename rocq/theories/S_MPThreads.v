(** Vocabulary for calls of mp_dissim in progress at the same time. *)
From Coq Require Import String ZArith List.
From Verif Require Import Py Num Arr Conc M_MPDissim M_MPThreads.
Import ListNotations.

Section Spec.
  Context {V : Type} {N : Num V}.
  Variable vpow : V -> V -> V.
  Variable part : list V -> list nat -> list V.

  (** what a single call of mp_dissim may return *)
  Definition returns (c : mcall (V := V)) (r : result (arr2 V)) : Prop :=
    mp_dissim vpow part (c_X c) (c_Y c) (c_p c) (c_bins c) (c_bin c) (c_jobs c) (c_cpus c) r.

  (** a call that has not begun or has ended *)
  Definition idle (x : mcall (V := V) * phase (V := V)) : Prop :=
    match snd x with Start => True | Done _ => True | _ => False end.

  (** schedules without overlap: a call moves only while all others are idle *)
  Inductive one_by_one : sys (V := V) -> sys (V := V) -> Prop :=
  | ob_refl s : one_by_one s s
  | ob_step s g g' pre c ph ph' post :
      one_by_one s (g, pre ++ (c, ph) :: post) ->
      (forall x, In x (pre ++ post) -> idle x) ->
      mstep vpow part c g ph g' ph' ->
      one_by_one s (g', pre ++ (c, ph') :: post).

  (** the data the bins are made of, and the kind of bins *)
  Definition same_bins (c c' : mcall (V := V)) : Prop :=
    eq2 (call_Y c) (call_Y c') /\ c_bins c = c_bins c' /\ c_bin c = c_bin c'.
End Spec.
