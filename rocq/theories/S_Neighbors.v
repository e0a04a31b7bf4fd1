(** Specification of "k nearest neighbours", independent of any algorithm. *)
From Coq Require Import String.
From Coq Require Import ZArith List Arith Lia Bool.
From Verif Require Import Py Num Arr.
Import ListNotations.

(** The two supported orientations of a matrix. *)
Definition is_sim (metric : string) : bool := String.eqb metric "similarity".
Definition is_dist (metric : string) : bool := String.eqb metric "distance".
Definition valid_metric (metric : string) : bool := is_dist metric || is_sim metric.

(** [x] is strictly nearer than [y]: smaller distance / larger similarity *)
Definition nearer {V} {N : Num V} (metric : string) (x y : V) : bool :=
  if is_sim metric then nlt y x else nlt x y.

(** the value that loses against every finite value *)
Definition worst {V} {N : Num V} (metric : string) : V :=
  if is_sim metric then nninf else ninf.

(** [nn] is a list of [k] nearest of the candidates [0..m-1], nearest first:
    distinct candidates, no listed one is strictly better than an earlier one,
    no omitted one is strictly better than a listed one. *)
Record knn_list (better : nat -> nat -> bool) (m k : nat) (nn : list nat) : Prop := {
  knn_len : length nn = k;
  knn_nodup : NoDup nn;
  knn_range : forall x, In x nn -> x < m;
  knn_sorted : forall a b, a < b -> b < k -> better (nth b nn 0) (nth a nn 0) = false;
  knn_best : forall x y, x < m -> ~ In x nn -> In y nn -> better x y = false
}.

(** A candidate [j] of query row [i] is usable if its value is finite and it
    is not the query itself (square matrices); partial *distance* matrices
    treat 0 as a self distance. *)
Definition usable {V} {N : Num V} (metric : string) (D : arr2 V) (i j : nat) : bool :=
  nisfin (at2 D i j) &&
  (if nrow D =? ncol D then negb (j =? i)
   else negb (is_dist metric && neq (at2 D i j) n0)).

(** the value under which candidate [j] competes for row [i] *)
Definition eff {V} {N : Num V} (metric : string) (D : arr2 V) (i j : nat) : V :=
  if usable metric D i j then at2 D i j else worst metric.
