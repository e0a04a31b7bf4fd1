(** Specification of hubness-aware shared neighbour similarities, independent
    of the code.  [hood i] is the list of neighbours of object [i]. *)
From Coq Require Import String.
From Coq Require Import ZArith List Arith Lia Bool Reals.
From Verif Require Import Py Num NumT Arr S_Neighbors S_SNN.
Import ListNotations.
Local Open Scope nat_scope.

(** in how many of the neighbourhoods of the objects [0..m-1] object [x]
    occurs, every object being the zeroth neighbour of itself *)
Definition occurs (hood : nat -> list nat) (m x : nat) : nat :=
  length (filter (fun i => (i =? x) || existsb (Nat.eqb x) (hood i)) (seq 0 m)).

(** the common neighbours *)
Definition common (a b : list nat) : list nat :=
  filter (fun x => existsb (Nat.eqb x) b) a.

(** sum of the occurrence informativeness ln(m / N(x)) of the common
    neighbours, divided by its largest conceivable value *)
Definition hub_sim (hood : nat -> list nat) (N : nat -> nat) (m s i j : nat) : R :=
  (rsum (map (fun x => ln (INR m / INR (N x))) (common (hood i) (hood j)))
   / (INR s * ln (INR m)))%R.

(** neighbours of [i] among the columns of [D], the columns being the objects
    [train]; the object itself ranks last *)
Definition shi_neighbours {V} {N : Num V} (D : arr2 V) (train : list nat) (s i : nat)
    (l : list nat) : Prop :=
  kset (fun x y => nearer "distance"%string (rank_value_s "distance"%string D train i x)
                                     (rank_value_s "distance"%string D train i y)) (ncol D) s l.

(** ** the supervised variant *)

(** neighbourhoods of objects of class [c], among [0..m-1], that contain [x] *)
Definition occurs_class (hood : nat -> list nat) (y : list Z) (m : nat) (c : Z) (x : nat) : nat :=
  length (filter (fun i => existsb (Nat.eqb x) (hood i) && (nth i y 0%Z =? c)%Z) (seq 0 m)).

(** the same for all classes together *)
Definition occurs_any (hood : nat -> list nat) (m x : nat) : nat :=
  length (filter (fun i => existsb (Nat.eqb x) (hood i)) (seq 0 m)).

(** the set of class labels *)
Definition classes (y : list Z) : list Z := nodup Z.eq_dec y.

(** share of class [c] among the occurrences of [x], as the code computes it:
    one occurrence is added to every class, one to the total *)
Definition class_share (hood : nat -> list nat) (y : list Z) (m : nat) (c : Z) (x : nat) : R :=
  ((INR (occurs_class hood y m c x) + 1) / (INR (occurs_any hood m x) + 1))%R.

Definition info_gain (hood : nat -> list nat) (y : list Z) (m x : nat) : R :=
  (ln (INR (length (classes y)))
   + rsum (map (fun c => class_share hood y m c x * ln (class_share hood y m c x)) (classes y)))%R.

Definition sup_sim (hood : nat -> list nat) (N : nat -> nat) (y : list Z) (m s i j : nat) : R :=
  (rsum (map (fun x => ln (INR m / INR (N x)) * info_gain hood y m x) (common (hood i) (hood j)))
   / (INR s * ln (INR m) * ln (INR (length (classes y)))))%R.
