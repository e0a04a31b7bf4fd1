(** Mutual Proximity of sparse matrices as programs on matrices in memory: which
    matrix is a copy and which is changed in place.  A heap is the list of all
    sparse matrix objects, a reference is a position in it (compare Heap.v). *)
From Coq Require Import String.
From Coq Require Import ZArith List Arith Lia Bool.
From Verif Require Import Py Num Arr S_Neighbors M_IO M_MPEmpiric M_MPDist.
Import ListNotations.

Section SparseHeap.
  Context {V : Type}.
  (** memory of global_scaling.py:312-345, 675-925 (scipy sparse matrices are objects with data arrays changed in place) *)
  Definition sheap := list (smat V).
  (** a computation of global_scaling.py:312-345, 675-925 that reads and changes memory and may raise *)
  Definition sprog (A : Type) := sheap -> result A * sheap.
  (** a value (needed throughout global_scaling.py:675-925) *)
  Definition s_ret {A} (a : A) : sprog A := fun h => (Ok a, h).
  (** a check that does not touch memory (global_scaling.py:590-602, 698-699, 795-806) *)
  Definition s_lift {A} (r : result A) : sprog A := fun h => (r, h).
  (** one statement after the other (global_scaling.py:675-925); an exception ends the computation *)
  Definition s_bind {A B} (p : sprog A) (f : A -> sprog B) : sprog B := fun h =>
    match p h with (Ok a, h') => f a h' | (Raise e, h') => (Raise e, h') end.
  (** reading an object (global_scaling.py:329-342, 700-731, 875-908) *)
  Definition s_get (a : nat) : sprog (smat V) := fun h =>
    match nth_error h a with Some A => (Ok A, h) | None => (Raise UnboundLocalError, h) end.
  (** a new object: copies, slices, constructors (global_scaling.py:700, 713, 741, 875, 879, 894, 925) *)
  Definition s_new (A : smat V) : sprog nat := fun h => (Ok (length h), h ++ [A]).
  (** changing the object at a position (global_scaling.py:704, 737, 740, 880, 914, 916, 924) *)
  Fixpoint s_put (h : sheap) (a : nat) (f : smat V -> smat V) : sheap :=
    match h, a with
    | [], _ => []
    | A :: h', 0 => f A :: h'
    | A :: h', S a' => A :: s_put h' a' f
    end.
  (** an operation in place (global_scaling.py:704, 737, 740, 880, 914, 916, 924) *)
  Definition s_upd (a : nat) (f : smat V -> smat V) : sprog unit := fun h => (Ok tt, s_put h a f).
  (** a for loop (global_scaling.py:717-737, 897-914, 922-924) *)
  Fixpoint s_for (l : list nat) (body : nat -> sprog unit) : sprog unit :=
    match l with
    | [] => s_ret tt
    | i :: l' => s_bind (body i) (fun _ => s_for l' body)
    end.
End SparseHeap.
Arguments sheap : clear implicits.
Arguments sprog : clear implicits.

Declare Scope sheap_scope.
Notation "x <~ p ; q" := (s_bind p (fun x => q))
  (at level 100, p at next level, q at level 200, right associativity) : sheap_scope.
Notation "p ;~ q" := (s_bind p (fun _ : unit => q))
  (at level 100, q at level 200, right associativity) : sheap_scope.
Local Open Scope sheap_scope.

Section Programs.
  Context {V : Type} {N : Num V}.
  Variable vsum : list V -> V.

  (** global_scaling.py:700, 875, 974: the rows [rows] of a matrix *)
  Definition take_rows (rows : list nat) (A : smat V) : smat V :=
    SMat (length rows) (scol A) (fun a j => stored A (nth a rows 0) j).
  (** global_scaling.py:700, 875, 974: [S[train_set_ind]]; slices and index
      arrays of a csr_matrix make a new one *)
  Definition slice_copy (S : nat) (rows : list nat) : sprog V nat := A <~ s_get S; s_new (take_rows rows A).
  (** the same if a slice of all rows gave the matrix itself (as for numpy
      arrays, which share memory with their slices); not what scipy does, for
      comparison with global_scaling.py:700 *)
  Definition slice_view (S : nat) (rows : list nat) : sprog V nat := s_ret S.

  (** global_scaling.py:704, 880, 979: [X.data **= 2] *)
  Definition square (A : smat V) : smat V :=
    SMat (srow A) (scol A) (fun i j => match stored A i j with Some v => Some (nmul v v) | None => None end).
  (** global_scaling.py:702, 877, 976: sums and numbers of the stored values of a column *)
  Definition whole_col (A : smat V) (j : nat) : list V := sp_col A (seq 0 (srow A)) j.
  (** global_scaling.py:702, 705: [(A.sum(0) - 1.) / (A.getnnz(0) - 1)] *)
  Definition col_mean (A : smat V) (j : nat) : V :=
    ndiv (nsub (vsum (whole_col A j)) n1) (nofZ (Z.of_nat (length (whole_col A j)) - 1)).
  (** global_scaling.py:713, 894: [lil_matrix(S.shape)] *)
  Definition empty (n m : nat) : smat V := SMat n m (fun _ _ => None).
  (** global_scaling.py:737, 914: [S_mp[i, i:] = tmp] *)
  Definition put_row (i : nat) (f : nat -> option V) (A : smat V) : smat V :=
    SMat (srow A) (scol A) (fun a b => if (a =? i) && (i <=? b) then f b else stored A a b).
  (** global_scaling.py:740, 916: [S_mp += S_mp.T] *)
  Definition add_transposed (r : V -> V) (A : smat V) : smat V :=
    SMat (srow A) (scol A) (fun i j => match sp_plus (stored A i j) (stored A j i) with
                                       | Some x => Some (r x) | None => None end).
  (** global_scaling.py:922-924: [S_mp[row, :] = S.getrow(row)] *)
  Definition put_whole_row (i : nat) (f : nat -> option V) (A : smat V) : smat V :=
    SMat (srow A) (scol A) (fun a b => if a =? i then f b else stored A a b).

  Variable slice : nat -> list nat -> sprog V nat.
  Variable vcdf : V -> V -> V -> V.

  (** global_scaling.py:590-614, 675-741: mutual_proximity_gaussi of the sparse matrix [S];
      [X] and [S_param] are one object (703) *)
  Definition is_gaussi (S : nat) (metric : string) (test : option (list Z)) : sprog V nat :=
    S0 <~ s_get S;
    s_lift (check_distance_matrix_shape (Sparse (srow S0) (scol S0))) ;~
    s_lift (check_valid_metric_parameter metric) ;~
    s_lift (guard (negb (unit_diagonal S0)) ValueError) ;~
    S_param <~ slice S (train_rows (srow S0) test);
    P <~ s_get S_param;
    let mu := col_mean P in
    let X := S_param in
    s_upd X square ;~
    Q <~ s_get X;
    let E1 := col_mean Q in
    let sd j := nsqrt (nsub (E1 j) (nmul (mu j) (mu j))) in
    S_mp <~ s_new (empty (srow S0) (scol S0));
    s_for (seq 0 (srow S0)) (fun i =>
      A <~ s_get S;
      let p x k := if neq x n0 then n0 else vcdf x (mu k) (sd k) in
      s_upd S_mp (put_row i (fun j =>
        lil (if i =? j then half else nmul (p (sval A i j) i) (p (sval A j i) j))))) ;~
    s_upd S_mp (add_transposed (fun x => x)) ;~
    M <~ s_get S_mp;
    s_new M.

  Variable vgam : V -> V -> V.
  Variable r32 : V -> V.

  (** global_scaling.py:795-816, 851-925: mutual_proximity_gammai of the sparse matrix [S];
      [X] is a copy (879) *)
  Definition is_gammai (S : nat) (metric : string) (min_nnz : nat) (test : option (list Z)) : sprog V nat :=
    S0 <~ s_get S;
    s_lift (check_distance_matrix_shape (Sparse (srow S0) (scol S0))) ;~
    s_lift (check_valid_metric_parameter metric) ;~
    s_lift (guard (negb (unit_diagonal S0)) ValueError) ;~
    S_param <~ slice S (train_rows (srow S0) test);
    P <~ s_get S_param;
    let mu := col_mean P in
    X <~ s_new P;
    s_upd X square ;~
    Q <~ s_get X;
    let E1 := col_mean Q in
    let n_x j := (Z.of_nat (length (whole_col Q j)) - 1)%Z in
    let va j := nmul (ndiv (nofZ (n_x j)) (nofZ (n_x j - 1))) (nsub (E1 j) (nmul (mu j) (mu j))) in
    let A' j := let a := ndiv (nmul (mu j) (mu j)) (va j) in if nlt a n0 then nnan else a in
    let B' j := let b := ndiv (va j) (mu j) in if nle b n0 then nnan else b in
    S_mp <~ s_new (empty (srow S0) (scol S0));
    s_for (seq 0 (srow S0)) (fun i =>
      A <~ s_get S;
      if row_nnz A i <=? min_nnz then s_ret tt
      else s_upd S_mp (put_row i (fun j =>
        lil (r32 (if i =? j then half
                  else nmul (gamcdf vgam (sval A i j) (A' i) (B' i)) (gamcdf vgam (sval A j i) (A' j) (B' j))))))) ;~
    s_upd S_mp (add_transposed r32) ;~
    s_for (seq 0 (srow S0)) (fun i =>
      A <~ s_get S;
      if row_nnz A i <=? min_nnz then s_upd S_mp (put_whole_row i (fun j => lil (r32 (sval A i j)))) else s_ret tt) ;~
    M <~ s_get S_mp;
    s_new M.
End Programs.

Section EmpiricPair.
  Context {V : Type} {N : Num V}.
  (** global_scaling.py:329-330: [S.getrow(i)], a new matrix of one row *)
  Definition s_getrow (S i : nat) : sprog V nat :=
    A <~ s_get S; s_new (SMat 1 (scol A) (fun _ j => stored A i j)).
  (** global_scaling.py:340-341: [S_i.data[S_i.data <= threshold] = 0] *)
  Definition cut (t : V) (A : smat V) : smat V :=
    SMat (srow A) (scol A) (fun a j => sp_cut t (stored A a j)).
  (** global_scaling.py:312-345 _mpes_sec_dist: one task of a worker; returns the value written *)
  Definition is_pair (S : nat) (min_nnz : nat) (i j : nat) : sprog V V :=
    A <~ s_get S;
    let threshold := sval A i j in
    S_i <~ s_getrow S i;
    S_j <~ s_getrow S j;
    Ri <~ s_get S_i;
    Rj <~ s_get S_j;
    if (row_nnz Ri 0 <=? min_nnz) || (row_nnz Rj 0 <=? min_nnz) then s_ret nnan
    else
      s_upd S_i (cut threshold) ;~
      s_upd S_j (cut threshold) ;~
      Ci <~ s_get S_i;
      Cj <~ s_get S_j;
      s_ret (nsub n1 (ndiv (nofnat (count_if (fun x =>
        match sp_plus (stored Ci 0 x) (stored Cj 0 x) with Some _ => true | None => false end) (scol A)))
        (nofnat (srow A)))).
  (** global_scaling.py:380-384: the tasks a worker process carries out one after the other *)
  Fixpoint is_pairs (S : nat) (min_nnz : nat) (l : list (nat * nat)) : sprog V (list V) :=
    match l with
    | [] => s_ret []
    | (i, j) :: l' => v <~ is_pair S min_nnz i j; vs <~ is_pairs S min_nnz l'; s_ret (v :: vs)
    end.
End EmpiricPair.
