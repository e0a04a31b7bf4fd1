(** CSR matrices as they are in memory: per row the column indices and the
    values, in storage order, which need not be ascending (scipy calls such a
    matrix "not canonical"; products of sparse matrices are an example).

    [indptr] is represented by cutting [indices] and [data] into rows; position
    [p] of row [i] of the data array is [start S i + p]. *)
From Coq Require Import String.
From Coq Require Import ZArith List Arith Lia Bool.
From Verif Require Import Py Num Arr Conc M_IO M_MPEmpiric.
Import ListNotations.

(** a scipy csr_matrix object (global_scaling.py:347, 387) *)
Record csr (V : Type) := Csr { c_cols : nat; c_idx : list (list nat); c_dat : list (list V) }.
Arguments Csr {V}. Arguments c_cols {V}. Arguments c_idx {V}. Arguments c_dat {V}.

(** the value stored under a column; no column is stored twice (global_scaling.py:387-388, 405) *)
Fixpoint assoc {V} (j : nat) (l : list (nat * V)) : option V :=
  match l with
  | [] => None
  | (c, v) :: l' => if c =? j then Some v else assoc j l'
  end.

(** the column indices of a row in ascending order (scipy's sort_indices, called by
    tolil() in global_scaling.py:388) *)
Fixpoint put (c : nat) (l : list nat) : list nat :=
  match l with
  | [] => [c]
  | d :: l' => if c <=? d then c :: l else d :: put c l'
  end.
(** global_scaling.py:388: all column indices of a row *)
Definition put_all (l : list nat) : list nat := fold_right put [] l.

Section Raw.
  Context {V : Type} {N : Num V}.

  (** the matrix a csr object stands for: [S[i, j]], [S.getrow(i)] (global_scaling.py:323, 329-330) *)
  Definition csr_read (S : csr V) : smat V :=
    SMat (length (c_idx S)) (c_cols S)
         (fun i j => assoc j (combine (nth i (c_idx S) []) (nth i (c_dat S) []))).
  (** [S.indptr[i]] (global_scaling.py:326) *)
  Definition start (S : csr V) (i : nat) : nat := list_sum (map (@length nat) (firstn i (c_idx S))).
  (** [S.data.size] (global_scaling.py:370) *)
  Definition size (S : csr V) : nat := list_sum (map (@length nat) (c_idx S)).

  (** [np.searchsorted] (left); the answer for a list that is not ascending is
      whatever its binary search ends with *)
  Variable search : list nat -> nat -> nat.

  (** global_scaling.py:378: the stored non-zero positions with i <= j, in storage order *)
  Definition csr_tasks (S : csr V) : list (nat * nat) :=
    flat_map (fun i => map (fun e => (i, fst e))
      (filter (fun e => (i <=? fst e) && nonzero (snd e)) (combine (nth i (c_idx S) []) (nth i (c_dat S) []))))
      (seq 0 (length (c_idx S))).
  (** global_scaling.py:326: [data_idx] *)
  Definition data_idx (S : csr V) (ij : nat * nat) : nat :=
    start S (fst ij) + search (nth (fst ij) (c_idx S) []) (snd ij).
  (** global_scaling.py:335-345: what the task for (i, j) writes, and where *)
  Definition csr_write (S : csr V) (min_nnz : nat) (ij : nat * nat) : list (nat * V) :=
    [(data_idx S ij, mpes_sec_dist (csr_read S) min_nnz (fst ij) (snd ij))].

  (** global_scaling.py:387-388: [csr_matrix((.., S.indices, S.indptr), copy=False)]
      uses the index arrays of S, and [tolil()] first sorts the indices of every
      row in place, together with the new data but without those of S. *)
  Definition csr_sorted (S : csr V) : csr V := Csr (c_cols S) (map put_all (c_idx S)) (c_dat S).

  (** global_scaling.py:387-412: from the shared array to the result; [S] as it was when the
      call began, rows with few entries are copied from S as it is now *)
  Definition csr_assemble (S : csr V) (min_nnz : nat) (data : nat -> V) : smat V :=
    let buffer i := map (fun p => data (start S i + p)) (seq 0 (length (nth i (c_idx S) []))) in
    let mp i j := assoc j (combine (nth i (c_idx S) []) (buffer i)) in
    let sym i j := sp_plus (mp i j) (mp j i) in
    let kept i j := if length (nth i (c_idx S) []) <=? min_nnz
                    then stored (csr_read (csr_sorted S)) i j else sym i j in
    SMat (length (c_idx S)) (c_cols S) (fun i j => if i =? j then Some n1 else kept i j).

  (** global_scaling.py:245-269, 347-412 mutual_proximity_empiric of a csr_matrix: outcome of
      the call, and the caller's matrix afterwards.  A position behind the end of
      the shared array is an IndexError in the worker, which imap passes on. *)
  Inductive mpes_csr (S : csr V) (metric : string) (test_ind : testind) (min_nnz : nat) :
      result (smat V) -> csr V -> Prop :=
  | raw_shape : length (c_idx S) <> c_cols S -> mpes_csr S metric test_ind min_nnz (Raise TypeError) S
  | raw_metric e : length (c_idx S) = c_cols S -> check_valid_metric_parameter metric = Raise e ->
      mpes_csr S metric test_ind min_nnz (Raise e) S
  | raw_dist : length (c_idx S) = c_cols S -> metric = "distance"%string ->
      mpes_csr S metric test_ind min_nnz (Raise ValueError) S
  | raw_test : length (c_idx S) = c_cols S -> metric = "similarity"%string ->
      test_ind_rejected test_ind = true ->
      mpes_csr S metric test_ind min_nnz (Raise NotImplementedError) S
  | raw_index ij : length (c_idx S) = c_cols S -> metric = "similarity"%string ->
      test_ind_rejected test_ind = false ->
      In ij (csr_tasks S) -> size S <= data_idx S ij ->
      mpes_csr S metric test_ind min_nnz (Raise IndexError) S
  | raw_ok data : length (c_idx S) = c_cols S -> metric = "similarity"%string ->
      test_ind_rejected test_ind = false ->
      (forall ij, In ij (csr_tasks S) -> data_idx S ij < size S) ->
      pool_run Nat.eqb (fun _ => n0) (map (csr_write S min_nnz) (csr_tasks S)) data ->
      mpes_csr S metric test_ind min_nnz (Ok (csr_assemble S min_nnz data)) (csr_sorted S).
End Raw.

(** numpy's binary search for the left insertion point (global_scaling.py:326) *)
Fixpoint bisect (fuel : nat) (l : list nat) (key lo hi : nat) : nat :=
  match fuel with
  | 0 => lo
  | S f => if lo <? hi
           then let mid := (lo + hi) / 2 in
                if nth mid l 0 <? key then bisect f l key (mid + 1) hi else bisect f l key lo mid
           else lo
  end.
(** global_scaling.py:326: [np.searchsorted] on the indices of a row *)
Definition np_search (l : list nat) (key : nat) : nat := bisect (length l) l key 0 (length l).
