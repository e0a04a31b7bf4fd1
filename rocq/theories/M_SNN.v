(** Model of /repo/hub_toolbox/shared_neighbors.py: snn_sample 27-168 and
    shared_nearest_neighbors 176-295. *)
From Coq Require Import String.
From Coq Require Import ZArith List Arith Lia Bool.
From Verif Require Import Py Num Arr Sort Conc S_Neighbors M_IO.
Import ListNotations.
Local Open Scope py_scope.

(** [l[:k]] for any Python integer [k] (shared_neighbors.py:186, 280) *)
Definition prefix {A} (l : list A) (k : Z) : list A :=
  firstn (Z.to_nat (if (k <? 0)%Z then Z.of_nat (length l) + k else k)) l.

Section SNN.
  Context {V : Type} {N : Num V}.

  (** shared_neighbors.py:243-252 / 107-114 *)
  Definition snn_self (metric : string) : V := if is_sim metric then n1 else n0.
  (** shared_neighbors.py:243-252 / 107-114 *)
  Definition snn_exclude (metric : string) : V := if is_sim metric then nninf else ninf.
  (** shared_neighbors.py:243-252 / 107-114 *)
  Definition snn_kth (metric : string) (n : nat) (k : Z) : Z :=
    if is_sim metric then (Z.of_nat n - k)%Z else k.
  (** [x[::sort_order]] (shared_neighbors.py:186, 280) *)
  Definition snn_order {A} (metric : string) (l : list A) : list A :=
    if is_sim metric then rev l else l.

  (** [knn[i, cells] = True] (shared_neighbors.py:186, 280) *)
  Definition mark_row (K : arr2 bool) (i : nat) (cells : list nat) : arr2 bool :=
    Arr2 (nrow K) (ncol K)
      (fun a b => if (a =? i) && existsb (Nat.eqb b) cells then true else at2 K a b).

  (** shared_neighbors.py:286-287: [np.sum(np.logical_and(knn_i, knn[j, :]))] *)
  Definition snn_shared (m : nat) (ki kj : nat -> bool) : nat :=
    count_if (fun x => ki x && kj x) m.

  (** shared_neighbors.py:288-291: [1. - Dij / k] or [Dij / k] *)
  Definition snn_val (metric : string) (k : Z) (c : nat) : V :=
    if is_sim metric then ndiv (nofnat c) (nofZ k)
    else nsub n1 (ndiv (nofnat c) (nofZ k)).

  (** np.argpartition *)
  Variable argpart : list V -> list nat -> list nat.

  (** shared_neighbors.py:183-186, 277-280, the neighbours of row [i] *)
  Definition snn_hood (metric : string) (k : Z) (dist : arr2 V) (i : nat) : result (list nat) :=
    let* p := np_argpartition argpart (rowl dist i) [snn_kth metric (nrow dist) k] in
    Ok (prefix (snn_order metric p) k).

  (** shared_neighbors.py:293-294: symmetrise and set the self values *)
  Definition snn_finish (metric : string) (M : arr2 V) : arr2 V :=
    fill_diagonal (zip2 nadd M (transpose M)) (snn_self metric).

  (** shared_neighbors.py:199-295 with n_jobs = 1 *)
  Definition snn_serial (D : arr2 V) (k : Z) (metric : string) : result (arr2 V) :=
    check_distance_matrix_shape (Dense [nrow D; ncol D]) ;;
    check_valid_metric_parameter metric ;;
    let n := nrow D in
    let dist := fill_diagonal D (snn_exclude metric) in
    let* hoods := mapM (snn_hood metric k dist) (seq 0 n) in
    let knn := for_ n (fun i K => mark_row K i (nth i hoods [])) (full2 n n false) in
    let Ds := for_ n (fun i M => setrow M i (i + 1) n (fun j =>
                 snn_val metric k (snn_shared n (at2 knn i) (at2 knn j)))) (full2 n n n0) in
    Ok (snn_finish metric Ds).

  (** shared_neighbors.py:183-187, 189-197: the two worker functions as lists
      of writes to the shared buffers *)
  Definition cell := (nat * nat)%type.
  (** equality of positions of the buffers of shared_neighbors.py:254-273 *)
  Definition celleq (a b : cell) : bool := (fst a =? fst b) && (snd a =? snd b).
  (** shared_neighbors.py:183-187 _snn_my_hood *)
  Definition snn_task1 (i : nat) (hood : list nat) : list (cell * bool) :=
    map (fun x => ((i, x), true)) hood.
  (** shared_neighbors.py:189-197 _snn_our_hood *)
  Definition snn_task2 (metric : string) (k : Z) (n : nat) (knn : cell -> bool) (i : nat) :
      list (cell * V) :=
    map (fun j => ((i, j), snn_val metric k
           (snn_shared n (fun x => knn (i, x)) (fun x => knn (j, x))))) (seq (i + 1) (n - (i + 1))).

  (** shared_neighbors.py:254-273: all outcomes of the worker pools.  The
      second [imap] starts after the first one is exhausted.  Shared buffers
      are zero initialised. *)
  Inductive snn_parallel (D : arr2 V) (k : Z) (metric : string) : result (arr2 V) -> Prop :=
  | sp_shape e : check_distance_matrix_shape (Dense [nrow D; ncol D]) = Raise e ->
      snn_parallel D k metric (Raise e)
  | sp_metric e : check_distance_matrix_shape (Dense [nrow D; ncol D]) = Ok tt ->
      check_valid_metric_parameter metric = Raise e ->
      snn_parallel D k metric (Raise e)
  | sp_task i e : check_distance_matrix_shape (Dense [nrow D; ncol D]) = Ok tt ->
      check_valid_metric_parameter metric = Ok tt -> i < nrow D ->
      snn_hood metric k (fill_diagonal D (snn_exclude metric)) i = Raise e ->
      snn_parallel D k metric (Raise e)
  | sp_ok hoods knn data :
      check_distance_matrix_shape (Dense [nrow D; ncol D]) = Ok tt ->
      check_valid_metric_parameter metric = Ok tt ->
      mapM (snn_hood metric k (fill_diagonal D (snn_exclude metric))) (seq 0 (nrow D)) = Ok hoods ->
      pool_run celleq (fun _ => false)
        (map (fun i => snn_task1 i (nth i hoods [])) (seq 0 (nrow D))) knn ->
      pool_run celleq (fun _ => n0)
        (map (snn_task2 metric k (nrow D) knn) (seq 0 (nrow D))) data ->
      snn_parallel D k metric
        (Ok (snn_finish metric (Arr2 (nrow D) (nrow D) (fun i j => data (i, j))))).

  (** np.argsort *)
  Variable argsort : list V -> list nat.

  (** shared_neighbors.py:122-123, 166-167: [for j, sample in
      enumerate(train_ind): M[sample, j] = v] *)
  Definition set_cells (idx : list nat) (v : V) (D : arr2 V) : arr2 V :=
    for_ (length idx) (fun j M => set2 M (nth j idx 0) j v) D.

  (** shared_neighbors.py:52-168 snn_sample with n_jobs = 1 (train_ind given) *)
  Definition snn_sample (D : arr2 V) (k : Z) (metric : string) (train : list nat)
      (test : option (list nat)) : result (arr2 V) :=
    check_sample_shape_fits (Dense [nrow D; ncol D]) (Dense [length train]) ;;
    check_valid_metric_parameter metric ;;
    let n := nrow D in let s := ncol D in
    guard (existsb (fun i => n <=? i) train) IndexError ;;
    guard (match test with
           | None => false | Some t => existsb (fun i => n <=? i) t end) IndexError ;;
    let dist := set_cells train (snn_exclude metric) D in
    let knn := for_ n (fun i K =>
        mark_row K i (prefix (snn_order metric (argsort (rowl dist i))) k)) (full2 n s false) in
    let n_ind := match test with None => seq 0 n | Some t => t end in
    let Ds := fold_left (fun M i => setrow M i 0 s (fun j =>
        snn_val metric k (snn_shared s (at2 knn i) (at2 knn (nth j train 0)))))
        n_ind (full2 n s n0) in
    match test with
    | None => Ok (fill_diagonal Ds (snn_self metric))
    | Some t => let M := set_cells train (snn_self metric) Ds in
                Ok (Arr2 (length t) s (fun a b => at2 M (nth a t 0) b))
    end.
End SNN.
