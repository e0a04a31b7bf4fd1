(** Vocabulary for the statements about intrinsic dimension: the maximum
    likelihood estimate of Levina and Bickel from the distances of objects to
    their nearest neighbours.  Independent of the model. *)
From Coq Require Import String.
From Coq Require Import Reals List Arith Bool Permutation Sorting.Sorted.
From Verif Require Import Num NumT Arr S_Approx S_Centering.
Import ListNotations.
Local Open Scope R_scope.

(** the objects are the rows of [x], in [m] dimensions *)
Definition edist (m : nat) (x : nat -> nat -> R) (i j : nat) : R := sqrt (sqdistR m (x i) (x j)).

(** [T i] lists the distances of object i to all other objects, smallest first *)
Definition nearest_dists (n m : nat) (x : nat -> nat -> R) (T : nat -> list R) : Prop :=
  forall i, (i < n)%nat ->
    StronglySorted Rle (T i) /\
    Permutation (T i) (map (edist m x i) (filter (fun j => negb (j =? i)%nat) (seq 0 n))).

(** the distance to the k-th nearest neighbour *)
Definition kth_dist (T : list R) (k : nat) : R := nth (k - 1) T 0.

(** the sum of ln (T_k / T_j) over the k - 1 nearer neighbours, see Levina and Bickel (2005) *)
Definition log_ratios (T : list R) (k : nat) : R :=
  rsum (map (fun j => ln (kth_dist T k / kth_dist T j)) (seq 1 (k - 1))).

(** estimate of one object from its k nearest neighbours *)
Definition local_dim (T : list R) (k : nat) : R := (INR k - 2) / log_ratios T k.

(** mean over all objects and neighbourhood sizes k1..k2 *)
Definition levina_estimate (T : nat -> list R) (n k1 k2 : nat) : R :=
  rmean (flat_map (fun i => map (local_dim (T i)) (seq k1 (k2 + 1 - k1))) (seq 0 n)).
(** for every k the harmonic mean over all objects, then the mean over k *)
Definition mackay_estimate (T : nat -> list R) (n k1 k2 : nat) : R :=
  rmean (map (fun k => / rmean (map (fun i => / local_dim (T i) k) (seq 0 n))) (seq k1 (k2 + 1 - k1))).
Definition estimate (e : string) : (nat -> list R) -> nat -> nat -> nat -> R :=
  if String.eqb e "levina" then levina_estimate else mackay_estimate.

(** the three transformations of the features *)
Definition feature (n : nat) (x : nat -> nat -> R) (f : nat) : list R := map (fun i => x i f) (seq 0 n).
Definition transformed (trafo : option string) (n : nat) (x : nat -> nat -> R) (i f : nat) : R :=
  match trafo with
  | None => x i f
  | Some t =>
      let s := rstd (feature n x f) in
      (x i f - rmean (feature n x f)) / ((if String.eqb t "var" then s * s else s) + / 10000000)
  end.

(** a distance of zero is replaced *)
Definition eff (r : R) : R := if Req_EM_T r 0 then sqrt (/ 10000000) else r.

(** X holds the finite numbers x, n objects (rows) with m features *)
Definition fin2 (X : arr2 xr) (n m : nat) (x : nat -> nat -> R) : Prop :=
  nrow X = n /\ ncol X = m /\ forall i f, (i < n)%nat -> (f < m)%nat -> at2 X i f = XFin (x i f).

(** the accepted values of the parameters *)
Definition trafo_ok (trafo : option string) : Prop := trafo = None \/ trafo = Some "std"%string \/ trafo = Some "var"%string.
Definition known_estimator (e : string) : Prop := e = "levina"%string \/ e = "mackay"%string.
