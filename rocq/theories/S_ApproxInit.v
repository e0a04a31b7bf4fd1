(** Specification vocabulary for the constructor of ApproximateHubnessReduction,
    independent of the code. *)
From Coq Require Import String Ascii.
From Coq Require Import ZArith List.
Import ListNotations.
Local Open Scope string_scope.

Definition lower_letters : list ascii := list_ascii_of_string "abcdefghijklmnopqrstuvwxyz".
Definition upper_letters : list ascii := list_ascii_of_string "ABCDEFGHIJKLMNOPQRSTUVWXYZ".
(** the same character, or the same letter in different case *)
Definition same_letter (a b : ascii) : Prop :=
  a = b \/ In (a, b) (combine lower_letters upper_letters) \/ In (b, a) (combine lower_letters upper_letters).
(** equal up to case *)
Fixpoint same_word (s t : string) : Prop :=
  match s, t with
  | EmptyString, EmptyString => True
  | String a s, String b t => same_letter a b /\ same_word s t
  | _, _ => False
  end.

(** [option_is names none s r]: the argument [s] (None or a string) means [r]:
    None and "none" in any case mean None, another name its canonical form *)
Definition option_means (names : list string) (s r : option string) : Prop :=
  match s with
  | None => r = None
  | Some s => (same_word s "none" /\ r = None) \/ exists c, In c names /\ same_word s c /\ r = Some c
  end.
