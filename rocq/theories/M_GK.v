(** Model of /repo/hub_toolbox/goodman_kruskal.py *)
From Coq Require Import String.
From Coq Require Import ZArith List Arith Lia Bool Permutation.
From Verif Require Import Py Num Arr Sort S_Neighbors M_IO.
Import ListNotations.
Local Open Scope py_scope.

(** np.unique of integer class labels: ascending, without repetitions
    (used at goodman_kruskal.py:74, 239) *)
Fixpoint uinsert (x : Z) (l : list Z) : list Z :=
  match l with
  | [] => [x]
  | y :: l' => if (x <? y)%Z then x :: l else if (x =? y)%Z then l else y :: uinsert x l'
  end.
(** np.unique, goodman_kruskal.py:74, 239 *)
Definition unique_labels (l : list Z) : list Z := fold_right uinsert [] l.

(** [D[mask]] with [mask = np.triu(m, 1)] (cells right of the diagonal, row by
    row), and with [np.triu(m, 1).T] (cells below the diagonal, row by row)
    (goodman_kruskal.py:78) *)
Definition triu_cells (n : nat) (m : nat -> nat -> bool) : list (nat * nat) :=
  flat_map (fun i => map (fun j => (i, j))
    (filter (fun j => m i j) (seq (i + 1) (n - (i + 1))))) (seq 0 n).
(** goodman_kruskal.py:86 *)
Definition triuT_cells (n : nat) (m : nat -> nat -> bool) : list (nat * nat) :=
  flat_map (fun i => map (fun j => (i, j))
    (filter (fun j => m j i) (seq 0 i))) (seq 0 n).

Section GK.
  Context {V : Type} {N : Num V}.

  (** np.argsort(kind='mergesort'): a stable sort; np.sort
      (used at goodman_kruskal.py:96, 100, 283, 304) *)
  Definition is_stable_argsort (l : list V) (p : list nat) : Prop :=
    is_argsort l p /\
    forall a b, a < b -> b < length l ->
      sle (vat l (nth b p 0)) (vat l (nth a p 0)) = true -> nth a p 0 < nth b p 0.
  (** contract of np.argsort(kind='mergesort'), goodman_kruskal.py:96, 283 *)
  Definition stable_ok (f : list V -> list nat) : Prop := forall l, is_stable_argsort l (f l).
  (** contract of np.sort, goodman_kruskal.py:100, 304 *)
  Definition sort_ok (f : list V -> list V) : Prop :=
    forall l, Permutation (f l) l /\
      forall a b, a < b -> b < length l -> sle (vat (f l) a) (vat (f l) b) = true.

  Variable argsort : list V -> list nat.
  Variable sort : list V -> list V.

  (** goodman_kruskal.py:100-104, 304-308: [sdf[equi_mask]], the values equal to their
      predecessor *)
  Definition repeated (sdf : list V) : list V :=
    map snd (filter (fun pq => neq (snd pq) (fst pq)) (combine sdf (tl sdf))).

  (** np.unique of a float array: sort, keep each value that differs from its
      predecessor (goodman_kruskal.py:106, 311) *)
  Definition np_unique (l : list V) : list V :=
    match sort l with
    | [] => []
    | x :: s => x :: map snd (filter (fun pq => negb (neq (snd pq) (fst pq)))
                                     (combine (x :: s) s))
    end.

  (** goodman_kruskal.py:98-111 / 292-316 *)
  Definition gk_equi (full : list V) (self_size : nat) : Z :=
    fold_left (fun acc d =>
      let arg := filter (fun i => neq (vat full i) d) (seq 0 (length full)) in
      let se := length (filter (fun i => i <? self_size) arg) in
      (acc + Z.of_nat se * (Z.of_nat (length arg) - Z.of_nat se))%Z)
      (np_unique (repeated (sort full))) 0%Z.

  (** goodman_kruskal.py:113-120 / 324-333 *)
  Definition gk_scan (self_size : nat) (ccsize : Z) (idx : list nat) : Z :=
    fst (fold_left (fun (st : Z * Z) i =>
           if i <? self_size then (fst st + snd st, snd st)%Z else (fst st, snd st - 1)%Z)
         idx (0%Z, ccsize)).

  (** [D_full[idx]], goodman_kruskal.py:77-91 *)
  Definition vals (D : arr2 V) (cells : list (nat * nat)) : list V :=
    map (fun c => at2 D (fst c) (snd c)) cells.

  (** goodman_kruskal.py:128-137 / 354-368 *)
  Definition gk_gamma (metric : string) (Q : V * V) : V :=
    let (Qc, Qd) := Q in
    if neq (nadd Qc Qd) n0 then n0
    else if is_sim metric then ndiv (nsub Qc Qd) (nadd Qc Qd)
    else ndiv (nsub Qd Qc) (nadd Qc Qd).

  (** goodman_kruskal.py:80-126, the loop over classes.  Class labels are
      integers; the numpy integer counters are unbounded here. *)
  Definition gk_class (D : arr2 V) (lab : list Z) (Q : V * V) (c : Z) : V * V :=
    let n := nrow D in
    let sel i := (nth i lab 0 =? c)%Z in
    let D_other := vals D (triu_cells n (fun i j => negb (nth i lab 0 =? nth j lab 0)%Z)) in
    if 1 <? count_if sel n then
      let D_self := vals D (triuT_cells n (fun i j => sel i && sel j)) in
      let D_full := D_self ++ D_other in
      let full_idx := rev (argsort D_full) in
      let n_equi := gk_equi D_full (length D_self) in
      let cc := gk_scan (length D_self) (Z.of_nat (length D_other)) full_idx in
      let dc := (Z.of_nat (length D_self) * Z.of_nat (length D_other) - cc - n_equi)%Z in
      (nadd (fst Q) (nofZ cc), nadd (snd Q) (nofZ dc))
    else Q.

  (** goodman_kruskal.py:19-137 goodman_kruskal_index *)
  Definition goodman_kruskal_index (D : arr2 V) (lab : list Z) (metric : string) : result V :=
    check_distance_matrix_shape (Dense [nrow D; ncol D]) ;;
    check_distance_matrix_shape_fits_labels (Dense [nrow D; ncol D]) (Dense [length lab]) ;;
    check_valid_metric_parameter metric ;;
    Ok (gk_gamma metric (fold_left (gk_class D lab) (unique_labels lab) (n0, n0))).

  (** goodman_kruskal.py:240-345, one class of the sparse index.  [S] is the
      content of the sparse matrix: the intermediate LIL matrices drop every
      value equal to zero, stored or not, so only the content matters. *)
  Definition nonzero (l : list V) : list V := filter (fun v => negb (neq v n0)) l.
  (** goodman_kruskal.py:240-345 *)
  Definition sgk_class (S : arr2 V) (lab : list Z) (zero_mv heuristic : bool)
      (Q : V * V) (c : Z) : V * V :=
    let n := length lab in
    let sel i := (nth i lab 0 =? c)%Z in
    let other_cells := triu_cells n (fun i j => negb (nth i lab 0 =? nth j lab 0)%Z) in
    let S_other := nonzero (vals S other_cells) in
    let n_other_zeros := (Z.of_nat (length other_cells) - Z.of_nat (length S_other))%Z in
    if 1 <? count_if sel n then
      let self_cells := triu_cells n (fun i j => sel i && sel j) in
      let S_self := nonzero (vals S self_cells) in
      let n_self_zeros := (Z.of_nat (length self_cells) - Z.of_nat (length S_self))%Z in
      let full := S_self ++ S_other in
      let self_data := Z.of_nat (length S_self) in
      let other_data := Z.of_nat (length S_other) in
      let self_size := (self_data + n_self_zeros)%Z in
      let other_size := (other_data + n_other_zeros)%Z in
      let idx := rev (argsort full) in
      let n_zero := if zero_mv then 0%Z else (n_self_zeros * n_other_zeros)%Z in
      let n_equi := if heuristic then 0%Z else gk_equi full (length S_self) in
      let ccsize := if zero_mv then other_data else other_size in
      let cc := gk_scan (length S_self) ccsize idx in
      let dc := if zero_mv then (self_data * other_data - cc - n_equi)%Z
                else (self_size * other_size - cc - n_equi - n_zero)%Z in
      (nadd (fst Q) (nofZ cc), nadd (snd Q) (nofZ dc))
    else Q.

  (** goodman_kruskal.py:139-368 sparse_goodman_kruskal_index; [heuristic] is
      [heuristic == 'equal_sim'] *)
  Definition sparse_goodman_kruskal_index (S : arr2 V) (lab : list Z) (metric : string)
      (zero_mv heuristic : bool) : result V :=
    check_distance_matrix_shape (Sparse (nrow S) (ncol S)) ;;
    check_distance_matrix_shape_fits_labels (Sparse (nrow S) (ncol S)) (Dense [length lab]) ;;
    check_valid_metric_parameter metric ;;
    Ok (gk_gamma metric (fold_left (sgk_class S lab zero_mv heuristic) (unique_labels lab) (n0, n0))).

  (** goodman_kruskal.py:370-404 _naive_goodman_kruskal.  The counters are
      Python integers; [/] of two integers is the float64 quotient (of their
      float64 conversions, which is the correctly rounded quotient for counters
      up to 2^53). *)
  Definition naive_loops (D : arr2 V) (lab : list Z) : Z * Z :=
    let n := nrow D in
    let L i := nth i lab 0%Z in
    for_ n (fun i st =>
      fold_left (fun st j =>
        if (L i =? L j)%Z then
          for_ n (fun k st =>
            fold_left (fun (st : Z * Z) l =>
              if negb (L l =? L k)%Z then
                if nlt (at2 D i j) (at2 D k l) then (fst st + 1, snd st)%Z
                else if nlt (at2 D k l) (at2 D i j) then (fst st, snd st + 1)%Z
                else st
              else st) (seq (k + 1) (n - (k + 1))) st) st
        else st) (seq (i + 1) (n - (i + 1))) st) (0, 0)%Z.

  (** goodman_kruskal.py:370-404 *)
  Definition naive_goodman_kruskal (D : arr2 V) (lab : list Z) (metric : string) : result V :=
    check_distance_matrix_shape (Dense [nrow D; ncol D]) ;;
    check_distance_matrix_shape_fits_labels (Dense [nrow D; ncol D]) (Dense [length lab]) ;;
    check_valid_metric_parameter metric ;;
    let (Qc, Qd) := naive_loops D lab in
    if (Qc + Qd =? 0)%Z then Ok n0
    else if is_sim metric then Ok (ndiv (nofZ (Qd - Qc)) (nofZ (Qc + Qd)))
    else Ok (ndiv (nofZ (Qc - Qd)) (nofZ (Qc + Qd))).
End GK.

(** reference implementations (one possible np.sort, goodman_kruskal.py:100, 304) *)
Definition ref_sort {V} {N : Num V} (l : list V) : list V := map (vat l) (ref_argsort l).
