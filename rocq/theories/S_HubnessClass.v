(** Specifications for the class Hubness. *)
From Coq Require Import String.
From Coq Require Import ZArith List Arith Permutation.
From Verif Require Import Num Arr M_HubnessClass.
Import ListNotations.

(** sum of |x - y| over all ordered pairs of entries *)
Definition pair_differences (l : list Z) : Z :=
  fold_right Z.add 0%Z (map (fun p => Z.abs (fst p - snd p)) (list_prod l l)).

Definition total (l : list Z) : Z := fold_right Z.add 0%Z l.

Definition all_equal (l : list Z) : Prop := forall x y, In x l -> In y l -> x = y.

(** [nn] is a list of [k] nearest of the candidates [0..m-1] other than [i],
    nearest first. *)
Record knn_others (better : nat -> nat -> bool) (m k i : nat) (nn : list nat) : Prop := {
  kno_len : length nn = k;
  kno_nodup : NoDup nn;
  kno_range : forall x, In x nn -> x < m /\ x <> i;
  kno_sorted : forall a b, a < b -> b < k -> better (nth b nn 0) (nth a nn 0) = false;
  kno_best : forall x y, x < m -> x <> i -> ~ In x nn -> In y nn -> better x y = false
}.

Section Input.
  Context {V : Type}.

  (** one permutation per row of stored entries *)
  Definition srows_wf (rows : list (list (nat * V))) (rps : option (nat -> list nat)) : Prop :=
    match rps with None => True
    | Some f => forall i, i < length rows -> Permutation (f i) (seq 0 (length (nth i rows []))) end.


  (** number of query rows and of training objects *)
  Definition in_rows (X : hub_input (V:=V)) : nat :=
    match X with InDense A => nrow A | InSparse _ rows => length rows end.
  Definition in_train (metric : string) (X : hub_input (V:=V)) (Y : option (arr2 V)) : nat :=
    match Y, X with
    | Some Y, _ => nrow Y
    | None, InDense A => if String.eqb metric "precomputed" then ncol A else nrow A
    | None, InSparse m _ => m
    end.
  (** permutations permute, csr rows have distinct columns in range *)
  Definition in_wf (X : hub_input (V:=V)) (rps : option (nat -> list nat)) : Prop :=
    match X with
    | InDense A => match rps with None => True | Some f => forall i, i < nrow A -> Permutation (f i) (seq 0 (ncol A)) end
    | InSparse m rows =>
        srows_wf rows rps /\ (forall r, In r rows -> NoDup (map fst r) /\ forall x, In x (map fst r) -> x < m)
    end.
End Input.
