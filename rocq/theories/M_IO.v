(** Model of /repo/hub_toolbox/io.py *)
From Coq Require Import String.
From Coq Require Import ZArith List Arith Lia Bool.
From Verif Require Import Py Num Arr S_Neighbors.
Import ListNotations.
Local Open Scope py_scope.

(** A Python object as the checks see it: something without an [ndim]
    attribute, or an array with a shape; [sparse] is [scipy.sparse.issparse]
    (a sparse matrix has [ndim] 2). (the arguments of io.py:64-131) *)
Inductive pyarr : Type :=
| NotArray
| Dense (shape : list nat)
| Sparse (rows cols : nat).

(** [arr.shape], io.py:64-131 *)
Definition shape_of (a : pyarr) : list nat :=
  match a with NotArray => [] | Dense s => s | Sparse r c => [r; c] end.
(** scipy.sparse.issparse, used at io.py:111 and in all modules of hub_toolbox *)
Definition issparse (a : pyarr) : bool := match a with Sparse _ _ => true | _ => false end.
(** [arr.size] of a dense array (io.py:91-124) *)
Definition size_of (a : pyarr) : nat := fold_right Nat.mul 1 (shape_of a).
(** [arr.shape[0]], io.py:75-124 *)
Definition dim0 (a : pyarr) : nat := nth 0 (shape_of a) 0.
(** [arr.shape[1]], io.py:75-124 *)
Definition dim1 (a : pyarr) : nat := nth 1 (shape_of a) 0.

(** io.py:64-73 check_is_nD_array.  An object without [ndim] raises
    AttributeError inside the try block, which is turned into TypeError. *)
Definition check_is_nD_array (a : pyarr) (n : nat) : result unit :=
  match a with
  | NotArray => Raise TypeError
  | _ => guard (negb (length (shape_of a) =? n)) TypeError
  end.

(** io.py:75-80 check_distance_matrix_shape *)
Definition check_distance_matrix_shape (D : pyarr) : result unit :=
  check_is_nD_array D 2 ;;
  guard (negb (dim0 D =? dim1 D)) TypeError.

(** io.py:82-89 check_distance_matrix_shape_fits_vectors *)
Definition check_distance_matrix_shape_fits_vectors (D X : pyarr) : result unit :=
  check_is_nD_array D 2 ;;
  check_is_nD_array X 2 ;;
  guard (negb (dim0 D =? dim0 X)) TypeError.

(** io.py:91-98 check_distance_matrix_shape_fits_labels *)
Definition check_distance_matrix_shape_fits_labels (D y : pyarr) : result unit :=
  check_is_nD_array D 2 ;;
  check_is_nD_array y 1 ;;
  guard (negb (size_of y =? dim0 D)) TypeError.

(** io.py:100-107 check_vector_matrix_shape_fits_labels *)
Definition check_vector_matrix_shape_fits_labels (X y : pyarr) : result unit :=
  check_is_nD_array X 2 ;;
  check_is_nD_array y 1 ;;
  guard (negb (size_of y =? dim0 X)) TypeError.

(** io.py:109-124 check_sample_shape_fits *)
Definition check_sample_shape_fits (D idx : pyarr) : result unit :=
  guard (issparse D || issparse idx) TypeError ;;
  check_is_nD_array D 2 ;;
  check_is_nD_array idx 1 ;;
  guard (dim0 D <? dim1 D) ValueError ;;
  guard (negb (dim1 D =? size_of idx)) TypeError.

(** io.py:126-131 check_valid_metric_parameter *)
Definition check_valid_metric_parameter (metric : string) : result unit :=
  guard (negb (is_dist metric) && negb (is_sim metric)) ValueError.

(** io.py:133-165 matrix_split, with [free_mem] (bytes, from /proc/meminfo) as
    an input.  All divisions are exact integer divisions here: Python computes
    [int(free_mem / cols / elem_size)] in floating point; the model uses the
    exact quotient (M_Text.v has the floating-point version; C128 proves them equal). Division by zero raises ZeroDivisionError. *)
Definition matrix_split (free_mem rows cols elem_size nr_matrices : nat) : result (nat * nat) :=
  guard ((cols =? 0) || (elem_size =? 0)) ZeroDivisionError ;;
  let max_rows := free_mem / cols / elem_size in
  guard (nr_matrices =? 0) ZeroDivisionError ;;
  let nr_rows := max_rows / nr_matrices in
  guard (nr_rows =? 0) ZeroDivisionError ;;
  let nr_batches := (rows + nr_rows - 1) / nr_rows in
  Ok (nr_batches, nr_rows).

(** scipy CSR matrix: shape, data, column indices, row pointers (the argument of io.py:193) *)
Record csr (V : Type) := Csr {
  csr_rows : nat; csr_cols : nat;
  csr_data : list V; csr_indices : list nat; csr_indptr : list nat }.
Arguments Csr {V}.
Arguments csr_rows {V}. Arguments csr_cols {V}. Arguments csr_data {V}.
Arguments csr_indices {V}. Arguments csr_indptr {V}.

(** An [.npz] archive: a map from names to stored arrays. (io.py:194-195, 199) *)
Inductive npz_value (V : Type) : Type :=
| NpzVals (l : list V)
| NpzInts (l : list nat).
Arguments NpzVals {V}. Arguments NpzInts {V}.
(** io.py:194-195, 199 *)
Definition npz (V : Type) := list (string * npz_value V).
(** [container[name]], io.py:200-201 *)
Fixpoint npz_get {V} (a : npz V) (name : string) : result (npz_value V) :=
  match a with
  | [] => Raise KeyError
  | (s, v) :: a' => if String.eqb s name then Ok v else npz_get a' name
  end.

(** the file system: contents by name ([.npz] archives only) (io.py:193-201) *)
Definition fsys (V : Type) := string -> option (npz V).

(** str.endswith inside np.savez, io.py:194-195 *)
Fixpoint ends_with (suf s : string) : bool :=
  String.eqb s suf || match s with EmptyString => false | String _ s' => ends_with suf s' end.

(** np.savez appends [.npz] to a file name that does not end in it (io.py:194-195) *)
Definition savez_name (file : string) : string :=
  if ends_with ".npz" file then file else String.append file ".npz".

(** io.py:193-196 save_csr_matrix for a file given by name: the file system
    afterwards and the returned name *)
Definition save_csr_matrix {V} (fs : fsys V) (file : string) (m : csr V) : fsys V * string :=
  (fun f => if String.eqb f (savez_name file) then
     Some [ ("data"%string, NpzVals (csr_data m));
            ("indices"%string, NpzInts (csr_indices m));
            ("indptr"%string, NpzInts (csr_indptr m));
            ("shape"%string, NpzInts [csr_rows m; csr_cols m]) ]
   else fs f, file).

(** scipy's constructor csr_matrix((data, indices, indptr), shape): the format
    checks, then pruning of storage beyond the last row pointer (io.py:200-201) *)
Definition csr_matrix {V} (r c : nat) (d : list V) (i p : list nat) : result (csr V) :=
  guard (negb (length p =? r + 1)) ValueError ;;
  guard (negb (nth 0 p 0 =? 0)) ValueError ;;
  guard (negb (length i =? length d)) ValueError ;;
  guard (length i <? nth r p 0) ValueError ;;
  Ok (Csr r c (firstn (nth r p 0) d) (firstn (nth r p 0) i) p).

(** io.py:198-201 load_csr_matrix (np.load opens exactly the given name) *)
Definition load_csr_matrix {V} (fs : fsys V) (file : string) : result (csr V) :=
  match fs file with
  | None => Raise FileNotFoundError
  | Some a =>
      let* d := npz_get a "data" in
      let* i := npz_get a "indices" in
      let* p := npz_get a "indptr" in
      let* s := npz_get a "shape" in
      match d, i, p, s with
      | NpzVals d, NpzInts i, NpzInts p, NpzInts [r; c] => csr_matrix r c d i p
      | _, _, _, _ => Raise TypeError
      end
  end.

(** dense contents of a CSR matrix: the sum of the stored values of row [i]
    with column index [j] (scipy's [toarray] adds duplicates) (for io.py:193-201) *)
Definition csr_at {V} {N : Num V} (m : csr V) (i j : nat) : V :=
  fold_left nadd
    (map snd (filter (fun cv => fst cv =? j)
       (slice (combine (csr_indices m) (csr_data m))
              (nth i (csr_indptr m) 0) (nth (S i) (csr_indptr m) 0)))) n0.

(** io.py:167-191 random_sparse_matrix, dense view: [S0] is the non-negative
    random matrix drawn by sparse.rand, [big] its maximum after symmetrisation.
    scipy scales the stored values by the reciprocal; a zero is taken as not
    stored. *)
Definition random_sparse_matrix {V} {N : Num V} (mx : list V -> V) (n : nat) (S0 : nat -> nat -> V) : arr2 V :=
  let S1 i j := nadd (S0 i j) (S0 j i) in
  let big := mx (flat_map (fun i => map (S1 i) (seq 0 n)) (seq 0 n)) in
  let S2 i j := if neq (S1 i j) n0 then S1 i j else nmul (S1 i j) (ndiv n1 big) in
  Arr2 n n (fun i j => if i =? j then nadd (nsub (S2 i i) (S2 i i)) n1 else S2 i j).
