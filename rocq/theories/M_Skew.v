(** Model of the second skewness measure of class Hubness
    (/repo/hub_toolbox/hubness.py:612-624). *)
From Coq Require Import ZArith List Arith Bool.
From Verif Require Import Py Num Arr M_HubnessClass.
Import ListNotations.

Section Skew.
  Context {V : Type} {N : Num V}.
  Variable vsum : list V -> V.
  (** [stats.truncnorm(a, b).moment(3)] (hubness.py:623) *)
  Variable moment3 : V -> V -> V.

  (** [Nk.std(ddof=1)] (hubness.py:620) *)
  Definition zstd1 (Nk : list Z) : V :=
    nsqrt (ndiv (vsum (map (fun x => let d := nsub (nofZ x) (zmean Nk) in nmul d d) Nk))
                (nofZ (Z.of_nat (length Nk) - 1))).
  (** hubness.py:612-624 _skewness_truncnorm *)
  Definition skewness_truncnorm (Nk : list Z) : V :=
    let clip_left := n0 in
    let clip_right := nofZ (2 ^ 63 - 1) in
    let Nk_mean := zmean Nk in
    let Nk_std := zstd1 Nk in
    let a := ndiv (nsub clip_left Nk_mean) Nk_std in
    let b := ndiv (nsub clip_right Nk_mean) Nk_std in
    moment3 a b.
End Skew.
