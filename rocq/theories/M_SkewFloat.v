(** Model of the hubness value S_k as it is computed (hubness.py:222, 297, 378 and
    711 call scipy.stats.skew on the k-occurrences), with rounding.  M_Hubness.v
    has the same value in exact arithmetic. *)
From Coq Require Import ZArith List Bool.
From Verif Require Import Num.
Import ListNotations.

Section Skew.
  Context {V : Type} {N : Num V}.
  (** np.sum *)
  Variable vsum : list V -> V.
  (** [m2 ** 1.5] *)
  Variable vpow15 : V -> V.
  (** scipy takes m2 for 0 if it is at most [(tol * mean)^2]: tol is 1e-15 in
      recent versions and 0 in old ones *)
  Variable tol : V.

  (** ndarray.mean, as used by scipy.stats.skew (hubness.py:222, 297) *)
  Definition mean_of (l : list V) : V := ndiv (vsum l) (nofnat (length l)).
  (** scipy.stats.skew(N_k), bias=True (hubness.py:222, 297, 378, 711).  scipy's
      _moment squares the deviations, and for the third moment multiplies the
      squares by the deviations. *)
  Definition skew_of (Nk : list nat) : V :=
    let a := map nofnat Nk in
    let mean := mean_of a in
    let dev := map (fun x => nsub x mean) a in
    let m2 := mean_of (map (fun d => nmul d d) dev) in
    let m3 := mean_of (map (fun d => nmul (nmul d d) d) dev) in
    if nle m2 (nmul (nmul tol mean) (nmul tol mean)) then n0 else ndiv m3 (vpow15 m2).
End Skew.
