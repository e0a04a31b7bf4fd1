(** Specification of the Goodman-Kruskal index, independent of the code. *)
From Coq Require Import ZArith List Arith Lia Bool.
From Verif Require Import Py Num Arr.
Import ListNotations.

(** the undirected edges [(i, j)], [i < j < n] *)
Definition edges (n : nat) : list (nat * nat) :=
  flat_map (fun i => map (fun j => (i, j)) (seq (i + 1) (n - (i + 1)))) (seq 0 n).

Lemma edges_spec n i j : In (i, j) (edges n) <-> i < j < n.
Proof.
  unfold edges. rewrite in_flat_map. split.
  - intros (a & Ha & H). apply in_seq in Ha. apply in_map_iff in H.
    destruct H as (b & E & Hb). injection E as -> ->. apply in_seq in Hb. lia.
  - intros H. exists i. split; [apply in_seq; lia|]. apply in_map_iff. exists j.
    split; [reflexivity|]. apply in_seq. lia.
Qed.

(** an edge inside a class / between classes *)
Definition within (lab : list Z) (e : nat * nat) : bool :=
  (nth (fst e) lab 0 =? nth (snd e) lab 0)%Z.

(** number of quadruples (inner edge, outer edge) with a property *)
Definition quadruples (n : nat) (lab : list Z) (P : nat * nat -> nat * nat -> bool) : nat :=
  length (filter (fun q => within lab (fst q) && negb (within lab (snd q)) && P (fst q) (snd q))
                 (list_prod (edges n) (edges n))).

Section Spec.
  Context {V : Type} {N : Num V}.
  Definition edge_val (D : arr2 V) (e : nat * nat) : V := at2 D (fst e) (snd e).
  (** inner value smaller / larger than outer value *)
  Definition n_smaller (D : arr2 V) (lab : list Z) : nat :=
    quadruples (nrow D) lab (fun e o => nlt (edge_val D e) (edge_val D o)).
  Definition n_larger (D : arr2 V) (lab : list Z) : nat :=
    quadruples (nrow D) lab (fun e o => nlt (edge_val D o) (edge_val D e)).

  (** (Q_c - Q_d) / (Q_c + Q_d), 0 when nothing is comparable *)
  Definition gamma (qc qd : nat) : V :=
    if qc + qd =? 0 then n0
    else ndiv (nofZ (Z.of_nat qc - Z.of_nat qd)) (nofZ (Z.of_nat (qc + qd))).
End Spec.
