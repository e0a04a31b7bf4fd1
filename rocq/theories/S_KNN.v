(** Specification of k-nearest-neighbour classification, independent of the code. *)
From Coq Require Import String.
From Coq Require Import ZArith List Arith Lia Bool Sorting.
From Verif Require Import Py Num Arr S_Neighbors.
Import ListNotations.

(** [l] lists the candidates, nearest first *)
Record ranking (better : nat -> nat -> bool) (cand : nat -> Prop) (l : list nat) : Prop := {
  rk_nodup : NoDup l;
  rk_in : forall x, In x l <-> cand x;
  rk_sorted : forall a b, a < b -> b < length l -> better (nth b l 0) (nth a l 0) = false
}.

Definition zvotes (nn : list Z) (c : Z) : nat := count_occ Z.eq_dec nn c.

(** [c] has strictly more votes than every other class *)
Definition plurality (nn : list Z) (c : Z) : Prop :=
  forall c', c' <> c -> zvotes nn c' < zvotes nn c.

(** the documented rule: most frequent class; ties are broken by the nearest
    neighbour (the first of the list) *)
Definition elected (nn : list Z) (c : Z) : Prop :=
  plurality nn c \/ ((forall d, ~ plurality nn d) /\ nth_error nn 0 = Some c).

(** What the three outputs of an evaluation mean, given the predicted labels:
    [points] are the evaluated objects, [lab] their true labels, [cl] the
    sorted distinct labels that index the confusion matrix. *)
Record describes (points : list nat) (lab : nat -> Z) (cl : list Z) (pred : nat -> Z)
    (corr : nat -> bool) (cmat : nat -> nat -> nat) : Prop := {
  de_corr : forall i, In i points -> corr i = (lab i =? pred i)%Z;
  de_other : forall i, ~ In i points -> corr i = false;
  de_cmat : forall a b, a < length cl -> b < length cl ->
    cmat a b = length (filter (fun i => (lab i =? nth a cl 0)%Z && (pred i =? nth b cl 0)%Z) points);
  de_pred : forall i, In i points -> In (pred i) cl
}.

(** In row [i] at least one other object has a finite value, and no other
    object beats all finite values (-inf distance, +inf similarity). *)
Definition has_finite_neighbor {V} {N : Num V} (metric : string) (D : arr2 V) (i : nat) : Prop :=
  (exists x, x < ncol D /\ x <> i /\ nisfin (at2 D i x) = true) /\
  (forall x, x < ncol D -> x <> i ->
     nisfin (at2 D i x) = true \/ nisnan (at2 D i x) = true \/ neq (at2 D i x) (worst metric) = true).

(** [cl] lists the distinct labels in increasing order (np.unique) *)
Definition distinct_sorted (lab cl : list Z) : Prop :=
  StronglySorted Z.lt cl /\ forall c, In c cl <-> In c lab.

(** Accuracy, correctness flags and confusion matrix tell the same story about
    the evaluated [points]. *)
Record consistent {V} {N : Num V} (points : list nat) (lab : nat -> Z) (cl : list Z)
    (acc : V) (corr : nat -> bool) (cmat : nat -> nat -> nat) : Prop := {
  co_total : sum_nat (map (fun a => sum_nat (map (cmat a) (seq 0 (length cl)))) (seq 0 (length cl)))
             = length points;
  co_rows : forall a, a < length cl -> sum_nat (map (cmat a) (seq 0 (length cl))) =
              length (filter (fun i => (lab i =? nth a cl 0)%Z) points);
  co_trace : sum_nat (map (fun a => cmat a a) (seq 0 (length cl))) = length (filter corr points);
  co_other : forall i, ~ In i points -> corr i = false;
  co_acc : acc = Nat.iter (length (filter corr points))
                   (fun a => nadd a (ndiv n1 (nofnat (length points)))) n0
}.
