(** Specification vocabulary: probabilities in float64. *)
From Coq Require Import Bool List.
From Verif Require Import Num Arr S_LS.

(** NaN, or a number in [0, 1] *)
Definition unit_or_nan (x : f64) : Prop :=
  nisnan x = true \/ (nle n0 x = true /\ nle x n1 = true).

(** a square matrix of such values: symmetric (NaN mirrors NaN), with [self] on the diagonal *)
Definition mp_matrix (n : nat) (self : f64) (M : arr2 f64) : Prop :=
  nrow M = n /\ ncol M = n /\
  (forall i, i < n -> at2 M i i = self) /\
  (forall i j, i < n -> j < n -> same (at2 M i j) (at2 M j i) = true) /\
  (forall i j, i < n -> j < n -> unit_or_nan (at2 M i j)).
