(** Specification of the m_p dissimilarity over the reals, independent of the
    code.  A feature is cut into cells by separators. *)
From Coq Require Import List Arith Reals Permutation Sorting.
From Verif Require Import NumT S_Centering.
Import ListNotations.
Local Open Scope R_scope.

(** the cell of a value: how many separators it has reached *)
Definition cellR (seps : list R) (v : R) : nat :=
  length (filter (fun s => if Rle_dec s v then true else false) seps).
(** data mass between two values: the objects whose cell is not before that of
    the smaller and not after that of the larger one *)
Definition massR (seps col : list R) (u v : R) : nat :=
  length (filter (fun w => (Nat.min (cellR seps u) (cellR seps v) <=? cellR seps w)%nat &&
                           (cellR seps w <=? Nat.max (cellR seps u) (cellR seps v))%nat) col).

(** n cells of equal width between the smallest and the largest value *)
Definition equal_width (n : nat) (col seps : list R) : Prop :=
  exists lo hi, In lo col /\ In hi col /\ (forall v, In v col -> lo <= v <= hi) /\
    seps = map (fun k => if Req_EM_T lo hi then lo - 1 / 2 + INR k / INR n
                         else lo + INR k * ((hi - lo) / INR n)) (seq 1 (n - 1)).
(** n cells of about the same number of objects: every [step]-th object in
    sorted order is a separator *)
Definition equal_mass (n step : nat) (col seps : list R) : Prop :=
  exists T, Permutation T col /\ StronglySorted Rle T /\
    seps = map (fun k => nth (k * step) T 0) (seq 1 (n - 1)).

(** p-th power mean over d features of the mass relative to [total] objects *)
Definition mp_formula (d total : nat) (p : R) (mass : nat -> nat) : R :=
  powR (rsum (map (fun f => powR (INR (mass f) / INR total) p) (seq 0 d)) / INR d) (1 / p).
