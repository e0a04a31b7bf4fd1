(** Specification of Mutual Proximity with parametric distributions, independent
    of the code. *)
From Coq Require Import ZArith List Arith Lia Bool Reals Lra.
From Verif Require Import Py Num NumT Arr S_Approx.
Import ListNotations.
Local Open Scope nat_scope.

(** the objects that are not held out *)
Definition training (n : nat) (test : option (list Z)) : list nat :=
  match test with
  | None => seq 0 n
  | Some t => filter (fun l => if in_dec Z.eq_dec (Z.of_nat l) t then false else true) (seq 0 n)
  end.
(** distances [d l j] of the training objects l other than j to j *)
Definition seen (d : nat -> nat -> R) (train : list nat) (j : nat) : list R :=
  map (fun l => d l j) (filter (fun l => negb (l =? j)) train).
(** the spread used for object j: a tiny number stands for zero *)
Definition spread (l : list R) : R := if Req_EM_T (rstd l) 0 then (/ 10000000)%R else rstd l.

(** [Phi] is a distribution function and [cdf], [sf] are the distribution and
    survival function of the location-scale family of [Phi]; a scale of zero or
    NaN gives NaN (scipy). *)
Definition normal_family (Phi : R -> R) (cdf sf : xr -> xr -> xr -> xr) : Prop :=
  (forall z, (0 <= Phi z <= 1)%R) /\
  (forall x m s, (0 < s)%R -> cdf (XFin x) (XFin m) (XFin s) = XFin (Phi ((x - m) / s)%R) /\
                              sf (XFin x) (XFin m) (XFin s) = XFin (1 - Phi ((x - m) / s))%R) /\
  (forall x m, cdf x m (XFin 0) = XNaN /\ sf x m (XFin 0) = XNaN) /\
  (forall x m, cdf x m XNaN = XNaN /\ sf x m XNaN = XNaN).
(** a contract for the regularised lower incomplete gamma function *)
Definition gamma_family (G : R -> R -> R) (gam : xr -> xr -> xr) : Prop :=
  (forall a x, (0 < a)%R -> (0 <= x)%R -> gam (XFin a) (XFin x) = XFin (G a x) /\ (0 <= G a x <= 1)%R) /\
  (forall x, gam XNaN x = XNaN).

(** probability that both of two independent variables exceed / stay below *)
Definition both_below (p q : R) : R := (p * q)%R.
Definition not_both_above (p q : R) : R := (1 - (1 - p) * (1 - q))%R.
Definition mp_of (sim : bool) (p q : R) : R := if sim then both_below p q else not_both_above p q.

(** a dense square matrix of finite numbers (self values do not matter) *)
Definition finite_off (D : arr2 xr) (n : nat) (d : nat -> nat -> R) : Prop :=
  nrow D = n /\ ncol D = n /\ forall i j, i < n -> j < n -> i <> j -> at2 D i j = XFin (d i j).

(** a rectangular matrix whose column x belongs to object idx_x: the values in
    row i other than the self value *)
Definition row_seen (d : nat -> nat -> R) (idx : list nat) (i : nat) : list R :=
  map (fun x => d i x) (filter (fun x => negb (nth x idx 0 =? i)) (seq 0 (length idx))).

(** unbiased variance; a tiny number stands for zero *)
Definition rvar1 (l : list R) : R :=
  (rsum (map (fun x => (x - rmean l) * (x - rmean l)) l) / INR (length l - 1))%R.
Definition variance_of (l : list R) : R := if Req_EM_T (rvar1 l) 0 then (/ 10000000)%R else rvar1 l.
(** Gamma distribution with the mean and variance of [l], by its shape and scale *)
Definition gamma_shape (l : list R) : R := (rmean l * rmean l / variance_of l)%R.
Definition gamma_scale (l : list R) : R := (variance_of l / rmean l)%R.

(** a sparse similarity matrix: [w i j] is the known similarity, if any; no known
    similarity is zero, self similarities are 1 *)
Definition similarities (stored : nat -> nat -> option xr) (n : nat) (w : nat -> nat -> option R) : Prop :=
  (forall i j, i < n -> j < n -> stored i j = option_map XFin (w i j)) /\
  (forall i, i < n -> w i i = Some 1%R) /\
  (forall i j, i < n -> j < n -> w i j = w j i /\ w i j <> Some 0%R).
(** known similarities of the objects in [train] other than j to j *)
Definition known (w : nat -> nat -> option R) (train : list nat) (j : nat) : list R :=
  flat_map (fun l => if l =? j then [] else match w l j with Some v => [v] | None => [] end) train.

(** scale and location of the Gumbel distribution with mean and variance of [l];
    [g] is Euler's constant *)
Definition gumbel_scale (l : list R) : R := (sqrt (rvar1 l) * sqrt 6 / PI)%R.
Definition gumbel_loc (g : R) (l : list R) : R := (rmean l - g * gumbel_scale l)%R.
Definition gumbel_cdf (g : R) (l : list R) (x : R) : R :=
  exp (- exp (- (x - gumbel_loc g l) / gumbel_scale l)).
