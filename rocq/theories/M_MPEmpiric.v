(** Model of empiric Mutual Proximity, /repo/hub_toolbox/global_scaling.py:28-412. *)
From Coq Require Import String.
From Coq Require Import ZArith List Arith Lia Bool.
From Verif Require Import Py Num Arr Conc S_Neighbors M_IO.
Import ListNotations.
Local Open Scope py_scope.

(** The argument test_ind of the full variant: None, an integer index array or
    a boolean mask. (global_scaling.py:194, 260-265) *)
Inductive testind : Type :=
| TNone
| TInts (l : list Z)
| TBools (l : list bool).

(** global_scaling.py:263 [not np.all(~test_set_ind)].  On integers [~x] is
    [-x-1], which is zero (False) only for [x = -1]; on booleans it is the
    negation. *)
Definition test_ind_rejected (t : testind) : bool :=
  match t with
  | TNone => false
  | TInts l => negb (forallb (fun z => negb (- z - 1 =? 0)%Z) l)
  | TBools l => negb (forallb negb l)
  end.

Section MP.
  Context {V : Type} {N : Num V}.

  (** global_scaling.py:252-257 / 140-145 *)
  Definition mp_self (metric : string) : V := if is_sim metric then n1 else n0.
  (** global_scaling.py:254, 257 / 142, 145 *)
  Definition mp_exclude (metric : string) : V := if is_sim metric then ninf else nninf.

  (** global_scaling.py:290-293, 180-183: [np.sum((dI <= d) & (dJ <= d), 1) / n] resp.
      [1 - (np.sum((dI > d) & (dJ > d), 1) / n)] for one pair of rows; [len]
      is the number of columns summed over, [n] the divisor. *)
  Definition mp_value (metric : string) (n : nat) (dI dJ : nat -> V) (d : V) (len : nat) : V :=
    if is_sim metric
    then ndiv (nofnat (count_if (fun x => nle (dI x) d && nle (dJ x) d) len)) (nofnat n)
    else nsub n1 (ndiv (nofnat (count_if (fun x => nlt d (dI x) && nlt d (dJ x)) len)) (nofnat n)).

  (** global_scaling.py:271-299: the computation for a dense square matrix *)
  Definition mp_full_core (metric : string) (D0 : arr2 V) : arr2 V :=
    let n := nrow D0 in
    let D := fill_diagonal D0 (mp_exclude metric) in
    let Dmp := full2 n n n0 in
    let Dmp := for_ (n - 1) (fun i M =>
                 setrow M i (i + 1) n (fun j =>
                   mp_value metric n (at2 D i) (at2 D j) (at2 D j i) n)) Dmp in
    let Dmp := zip2 nadd Dmp (transpose Dmp) in
    fill_diagonal Dmp (mp_self metric).

  (** global_scaling.py:194-299 _mutual_proximity_empiric_full for a dense
      float64 array (the sparse branch is [mp_empiric_sparse] below). *)
  Definition mp_empiric_full (D : arr2 V) (metric : string) (test_ind : testind) :
      result (arr2 V) :=
    check_distance_matrix_shape (Dense [nrow D; ncol D]) ;;
    check_valid_metric_parameter metric ;;
    guard (test_ind_rejected test_ind) NotImplementedError ;;
    Ok (mp_full_core metric D).

  (** global_scaling.py:165-166 and 186-187: [for j, sample in enumerate(idx):
      D[sample, j] = v] *)
  Definition set_self_cells (idx : list nat) (v : V) (D : arr2 V) : arr2 V :=
    for_ (length idx) (fun j M => set2 M (nth j idx 0) j v) D.

  (** global_scaling.py:171-183: the loop over the rows in [rows] *)
  Definition mp_sample_loop (metric : string) (idx rows : list nat) (D M : arr2 V) : arr2 V :=
    fold_left (fun M i =>
      setrow M i 0 (ncol D) (fun j =>
        mp_value metric (ncol D) (at2 D i) (at2 D (nth j idx 0)) (at2 D i j) (ncol D)))
      rows M.

  (** global_scaling.py:89-192 _mutual_proximity_empiric_sample, dense input.
      [idx] and [test] hold non-negative indices (negative ones, which Python
      counts from the end, are not modelled); out of range raises IndexError.
      With [test = None] all rows are computed, otherwise only the listed ones,
      and those rows are returned in that order. *)
  Definition mp_empiric_sample (D : arr2 V) (idx : list nat) (metric : string)
      (test : option (list nat)) : result (arr2 V) :=
    check_sample_shape_fits (Dense [nrow D; ncol D]) (Dense [length idx]) ;;
    check_valid_metric_parameter metric ;;
    guard (existsb (fun s => nrow D <=? s) idx) IndexError ;;
    guard (match test with
           | None => false | Some t => existsb (fun s => nrow D <=? s) t end) IndexError ;;
    let D1 := set_self_cells idx (mp_exclude metric) D in
    let M0 := full2 (nrow D) (ncol D) nnan in
    let rows := match test with None => seq 0 (nrow D) | Some t => t end in
    let M1 := set_self_cells idx (mp_self metric) (mp_sample_loop metric idx rows D1 M0) in
    match test with
    | None => Ok M1
    | Some t => Ok (Arr2 (length t) (ncol D) (fun a b => at2 M1 (nth a t 0) b))
    end.
End MP.

(** ** Sparse matrices *)

(** A scipy CSR matrix in canonical format (sorted, unique column indices) is
    seen as the partial function of its stored entries.  The position of entry
    (i, j) in the data array, which the code finds with [np.searchsorted], is
    represented by the pair (i, j) itself. (global_scaling.py:312-412) *)
Record smat (V : Type) := SMat { srow : nat; scol : nat; stored : nat -> nat -> option V }.
Arguments SMat {V}. Arguments srow {V}. Arguments scol {V}. Arguments stored {V}.

Section Sparse.
  Context {V : Type} {N : Num V}.

  (** content of a position of a sparse matrix, global_scaling.py:323 *)
  Definition oval (o : option V) : V := match o with Some v => v | None => n0 end.
  (** dense contents (global_scaling.py:323) *)
  Definition sval (S : smat V) (i j : nat) : V := oval (stored S i j).
  (** [S.toarray()], for comparison with global_scaling.py:271-299 *)
  Definition sdense (S : smat V) : arr2 V := Arr2 (srow S) (scol S) (sval S).
  (** the pattern of a sparse matrix, global_scaling.py:387 *)
  Definition is_stored (S : smat V) (i j : nat) : bool :=
    match stored S i j with Some _ => true | None => false end.
  (** [S.getrow(i).nnz]: number of stored entries (global_scaling.py:334, 403) *)
  Definition row_nnz (S : smat V) (i : nat) : nat := count_if (is_stored S i) (scol S).
  (** value test used by scipy when it drops zeros and by [nonzero()]
      (global_scaling.py:342, 378) *)
  Definition nonzero (v : V) : bool := negb (neq v n0).

  (** A + B: entries of the union of both patterns whose sum is non-zero
      (global_scaling.py:342, 392) *)
  Definition sp_plus (a b : option V) : option V :=
    match a, b with
    | None, None => None
    | _, _ => let v := nadd (oval a) (oval b) in if nonzero v then Some v else None
    end.

  (** global_scaling.py:340-341: [S_i.data[S_i.data <= threshold] = 0] *)
  Definition sp_cut (t : V) (o : option V) : option V :=
    match o with Some v => Some (if nle v t then n0 else v) | None => None end.

  (** global_scaling.py:342: [1 - (S_i + S_j).nnz / n] *)
  Definition mpes_nnz (S : smat V) (t : V) (i j : nat) : nat :=
    count_if (fun x => match sp_plus (sp_cut t (stored S i x)) (sp_cut t (stored S j x)) with
                       | Some _ => true | None => false end) (scol S).

  (** global_scaling.py:312-345 _mpes_sec_dist: the value written for (i, j) *)
  Definition mpes_sec_dist (S : smat V) (min_nnz : nat) (i j : nat) : V :=
    if (row_nnz S i <=? min_nnz) || (row_nnz S j <=? min_nnz) then nnan
    else nsub n1 (ndiv (nofnat (mpes_nnz S (sval S i j) i j)) (nofnat (srow S))).

  (** global_scaling.py:378: stored non-zero positions with i <= j *)
  Definition mpes_tasks (S : smat V) : list (nat * nat) :=
    filter (fun ij => (fst ij <=? snd ij) &&
                      match stored S (fst ij) (snd ij) with
                      | Some v => nonzero v | None => false end)
           (list_prod (seq 0 (srow S)) (seq 0 (scol S))).

  (** equality of positions of the data array of global_scaling.py:370 *)
  Definition pos_eq (a b : nat * nat) : bool := (fst a =? fst b) && (snd a =? snd b).

  (** global_scaling.py:387-412: from the shared data array to the result *)
  Definition mpes_assemble (S : smat V) (min_nnz : nat) (data : nat * nat -> V) : smat V :=
    let mp i j := if is_stored S i j then Some (data (i, j)) else None in
    let sym i j := sp_plus (mp i j) (mp j i) in
    let kept i j := if row_nnz S i <=? min_nnz then stored S i j else sym i j in
    SMat (srow S) (scol S) (fun i j => if i =? j then Some n1 else kept i j).

  (** global_scaling.py:245-269, 347-412 _mutual_proximity_empiric_sparse: all outcomes
      of the pool; the shared array is zero initialised. *)
  Inductive mp_empiric_sparse (S : smat V) (metric : string) (test_ind : testind)
      (min_nnz : nat) : result (smat V) -> Prop :=
  | mpes_shape : srow S <> scol S -> mp_empiric_sparse S metric test_ind min_nnz (Raise TypeError)
  | mpes_metric e : srow S = scol S -> check_valid_metric_parameter metric = Raise e ->
      mp_empiric_sparse S metric test_ind min_nnz (Raise e)
  | mpes_dist : srow S = scol S -> metric = "distance"%string ->
      mp_empiric_sparse S metric test_ind min_nnz (Raise ValueError)
  | mpes_test : srow S = scol S -> metric = "similarity"%string ->
      test_ind_rejected test_ind = true ->
      mp_empiric_sparse S metric test_ind min_nnz (Raise NotImplementedError)
  | mpes_ok data : srow S = scol S -> metric = "similarity"%string ->
      test_ind_rejected test_ind = false ->
      pool_run pos_eq (fun _ => n0)
        (map (fun ij => [(ij, mpes_sec_dist S min_nnz (fst ij) (snd ij))]) (mpes_tasks S)) data ->
      mp_empiric_sparse S metric test_ind min_nnz (Ok (mpes_assemble S min_nnz data)).
End Sparse.
