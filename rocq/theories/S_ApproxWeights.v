(** Specification of predictions with weighted votes. *)
From Coq Require Import ZArith List Arith Bool Reals.
From Verif Require Import Py Num NumT Arr S_ApproxPredict M_ApproxWeights.
Import ListNotations.
Local Open Scope R_scope.

(** what is added to all distances of a matrix so that none is negative *)
Definition shift_of (D : arr2 xr) (top s : R) : Prop :=
  exists i j, (i < nrow D)%nat /\ (j < ncol D)%nat /\
    (forall i' j', (i' < nrow D)%nat -> (j' < ncol D)%nat ->
       effective top (at2 D i j) <= effective top (at2 D i' j')) /\
    s = Rmax 0 (- effective top (at2 D i j)).

(** weights of the voters [nb] with distances [d]: one each, or the inverse
    distances; voters at distance 0 silence the others *)
Definition weight (w : weighting) (d : nat -> R) (nb : list nat) (p : nat) : R :=
  match w with
  | WUniform => 1
  | WDistance => if existsb (fun q => if Req_EM_T (d q) 0 then true else false) nb
                 then if Req_EM_T (d p) 0 then 1 else 0
                 else / d p
  end.

(** weight of the votes for label [c] *)
Definition total (wt : nat -> R) (lab : nat -> Z) (nb : list nat) (c : Z) : R :=
  rsum (map (fun p => if Z.eqb (lab p) c then wt p else 0) nb).

(** the smallest of the labels with the most weight *)
Definition elected_by_weight (wt : nat -> R) (lab : nat -> Z) (nb : list nat) (c : Z) : Prop :=
  In c (map lab nb) /\
  forall c', In c' (map lab nb) -> total wt lab nb c' <= total wt lab nb c /\
                                   (total wt lab nb c' = total wt lab nb c -> (c <= c')%Z).

(** the predictions [pred] of all queries and outputs; [lab o i p] is the label of
    the p-th candidate of query i for output o *)
Definition weighted_rule (w : weighting) (K : nat) (lab : nat -> nat -> nat -> Z) (outputs : nat)
    (D : arr2 xr) (pred : list (list Z)) : Prop :=
  length pred = nrow D /\ exists top s, largest_finite D top /\ shift_of D top s /\
  forall i, (i < nrow D)%nat -> length (nth i pred []) = outputs /\
  forall o, (o < outputs)%nat -> exists nb,
    nearest_positions (fun p => effective top (at2 D i p)) (ncol D) K nb /\
    elected_by_weight (weight w (fun p => effective top (at2 D i p) + s) nb) (lab o i) nb (nth o (nth i pred []) 0%Z).
