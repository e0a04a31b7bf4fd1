(** Model of /repo/hub_toolbox/shared_neighbors.py: simhubIN 303-482 and
    simhub 484-636 (hubness-aware shared nearest neighbour distances).

    Simplifications.  [D] is a float array: an integer array is refused by
    numpy (casting errors) in lines 401/467.  Index arrays hold non-negative
    integers.  Labels are integers.  np.log and np.sum are parameters [vln] and
    [vsum]; [vsum] stands for the sums along an axis of a 2-D array as well. *)
From Coq Require Import String.
From Coq Require Import ZArith List Arith Lia Bool.
From Verif Require Import Py Num Arr Sort Conc S_Neighbors M_IO M_SNN M_GK.
Import ListNotations.
Local Open Scope py_scope.

Section Simhub.
  Context {V : Type} {N : Num V}.
  Variable argsort : list V -> list nat.
  Variable vln : V -> V.
  Variable vsum : list V -> V.

  (** shared_neighbors.py:385-388 and 536-539; the IndexErrors of lines 404,
      458/463 (numpy: index out of bounds).  In simhubIN all of them precede
      any result. *)
  Definition shi_shape (D : arr2 V) (train : option (list nat)) : result unit :=
    match train with
    | None => check_distance_matrix_shape (Dense [nrow D; ncol D])
    | Some t => check_sample_shape_fits (Dense [nrow D; ncol D]) (Dense [length t])
    end.
  (** shared_neighbors.py:404, 458, 463 *)
  Definition shi_index (n : nat) (idx : option (list nat)) : result unit :=
    guard (match idx with
           | None => false | Some t => existsb (fun i => n <=? i) t end) IndexError.

  (** shared_neighbors.py:399-404, 553-558: exclude self distances *)
  Definition shi_dist (D : arr2 V) (train : option (list nat)) : arr2 V :=
    match train with
    | None => fill_diagonal D ninf
    | Some t => set_cells t ninf D
    end.

  (** shared_neighbors.py:309-314, 422-425, 564-567: [nn[:s]] of row [i] *)
  Definition shi_hood (s : Z) (dist : arr2 V) (i : nat) : list nat :=
    prefix (argsort (rowl dist i)) s.

  (** shared_neighbors.py:419-425, 560-567 *)
  Definition shi_knn (s : Z) (dist : arr2 V) : arr2 bool :=
    for_ (nrow dist) (fun i K => mark_row K i (shi_hood s dist i))
         (full2 (nrow dist) (ncol dist) false).

  (** [x * I_n] for a boolean [x] (shared_neighbors.py:458-464, 610, 615) *)
  Definition b2v (b : bool) : V := if b then n1 else n0.

  (** shared_neighbors.py:429-431: N_s of simhubIN, the diagonal of the first
      [m] rows set to True *)
  Definition shi_N (knn : arr2 bool) (m x : nat) : nat :=
    let occ := fill_diagonal (Arr2 (min m (nrow knn)) m (at2 knn)) true in
    count_if (fun i => at2 occ i x) (nrow occ).
  (** shared_neighbors.py:432, 600 *)
  Definition shi_I (m : nat) (Ns : nat) : V := vln (ndiv (nofnat m) (nofnat Ns)).

  (** shared_neighbors.py:324-334, 458-464: one cell; [r] is the row of [knn]
      that row [i] is compared to *)
  Definition shi_cell (knn : arr2 bool) (m : nat) (I : nat -> V) (i r : nat) : V :=
    vsum (map (fun x => nmul (b2v (at2 knn i x && at2 knn r x)) (I x)) (seq 0 m)).

  (** the row of [knn] belonging to column [j]: [knn[train_ind, :]] with
      vectorisation (line 326, 458), [knn[j, :]] in the loops (line 333, 463) *)
  Definition shi_row (vect : bool) (train : option (list nat)) (j : nat) : nat :=
    if vect then match train with None => j | Some t => nth j t 0 end else j.

  (** shared_neighbors.py:466-482, 617-636: normalise by [norm], convert to
      distances, self values, rows of the test set *)
  Definition shi_finish (ret_dist : bool) (norm : V) (test : option (list nat)) (M : arr2 V) : arr2 V :=
    let M := map2d (fun v => ndiv v norm) M in
    let M := if ret_dist then map2d (fun v => nadd (nmul v (nopp n1)) n1) M else M in
    match test with
    | None => fill_diagonal M (if ret_dist then n0 else n1)
    | Some t => Arr2 (length t) (ncol M) (fun a b => at2 M (nth a t 0) b)
    end.

  (** shared_neighbors.py:466-482, 617-636: the rows of the test set *)
  Definition shi_rows (n : nat) (test : option (list nat)) : list nat :=
    match test with None => seq 0 n | Some t => t end.

  (** shared_neighbors.py:385-398, 536-552 *)
  Definition shi_checks (D : arr2 V) (train test : option (list nat)) : result unit :=
    shi_shape D train ;;
    shi_index (nrow D) train ;;
    shi_index (nrow D) test.

  (** shared_neighbors.py:467 [s * np.log(m)] *)
  Definition shi_norm (s : Z) (m : nat) : V := nmul (nofZ s) (vln (nofnat m)).

  (** shared_neighbors.py:337-482, n_jobs = 1 *)
  Definition simhubIN_serial (D : arr2 V) (train test : option (list nat)) (s : Z)
      (ret_dist : bool) : result (arr2 V) :=
    shi_checks D train test ;;
    let n := nrow D in let m := ncol D in
    let knn := shi_knn s (shi_dist D train) in
    let I x := shi_I m (shi_N knn m x) in
    let vect := m <? 2000 in
    let Ds := fold_left (fun M i => setrow M i 0 m (fun j =>
                 shi_cell knn m I i (shi_row vect train j)))
               (shi_rows n test) (full2 n m n0) in
    Ok (shi_finish ret_dist (shi_norm s m) test Ds).

  (** shared_neighbors.py:309-314, 324-335: the worker functions as lists of
      writes to the shared buffers *)
  Definition shi_task1 (s : Z) (dist : arr2 V) (i : nat) : list (cell * bool) :=
    map (fun x => ((i, x), true)) (shi_hood s dist i).
  (** shared_neighbors.py:324-335 _shi_simhub_vect *)
  Definition shi_task2 (knn : arr2 bool) (m : nat) (I : nat -> V) (vect : bool)
      (train : option (list nat)) (i : nat) : list (cell * V) :=
    map (fun j => ((i, j), shi_cell knn m I i (shi_row vect train j))) (seq 0 m).

  (** shared_neighbors.py:408-417, 438-453: all outcomes of the worker pools.
      The second pool starts after the first one is exhausted; the shared
      buffers are zero initialised; an exception in a worker is re-raised. *)
  Inductive simhubIN_parallel (D : arr2 V) (train test : option (list nat)) (s : Z)
      (ret_dist : bool) : result (arr2 V) -> Prop :=
  | shp_raise e : shi_checks D train test = Raise e ->
      simhubIN_parallel D train test s ret_dist (Raise e)
  | shp_ok knn data :
      shi_checks D train test = Ok tt ->
      pool_run celleq (fun _ => false)
        (map (shi_task1 s (shi_dist D train)) (seq 0 (nrow D))) knn ->
      (let m := ncol D in
       let K := Arr2 (nrow D) m (fun a b => knn (a, b)) in
       pool_run celleq (fun _ => n0)
         (map (shi_task2 K m (fun x => shi_I m (shi_N K m x)) (m <? 2000) train)
              (shi_rows (nrow D) test)) data) ->
      simhubIN_parallel D train test s ret_dist
        (Ok (shi_finish ret_dist (shi_norm s (ncol D)) test
               (Arr2 (nrow D) (ncol D) (fun a b => data (a, b))))).

  (** shared_neighbors.py:406-418, 438, 454: the branch on n_jobs; [cpus] is
      the result of cpu_count() *)
  Definition simhubIN (n_jobs : Z) (cpus : nat) (D : arr2 V) (train test : option (list nat))
      (s : Z) (ret_dist : bool) (r : result (arr2 V)) : Prop :=
    let jobs := if (n_jobs =? -1)%Z then Z.of_nat cpus else n_jobs in
    if (1 <? jobs)%Z then simhubIN_parallel D train test s ret_dist r
    else r = simhubIN_serial D train test s ret_dist.

  (* ---------------- simhub ---------------- *)

  (** shared_neighbors.py:580: [(y==c_val).reshape(-1, 1)] against [m] rows; a
      single label is broadcast *)
  Definition y_at (y : list Z) (i : nat) : Z := nth (if length y =? 1 then 0 else i) y 0%Z.
  (** shared_neighbors.py:571 and 580 *)
  Definition sh_occ (knn : arr2 bool) (m x : nat) : nat := count_if (fun i => at2 knn i x) m.
  (** shared_neighbors.py:580 *)
  Definition sh_occ_c (knn : arr2 bool) (y : list Z) (m : nat) (c : Z) (x : nat) : nat :=
    count_if (fun i => at2 knn i x && (y_at y i =? c)%Z) m.

  (** shared_neighbors.py:584, 586, 590: [N_sc / N_s] after both were
      increased by one *)
  Definition sh_p (knn : arr2 bool) (y : list Z) (m : nat) (c : Z) (x : nat) : V :=
    ndiv (nadd (nofnat (sh_occ_c knn y m c x)) n1) (nofnat (sh_occ knn m x + 1)).
  (** shared_neighbors.py:591 *)
  Definition sh_HR (knn : arr2 bool) (y : list Z) (m : nat) (x : nat) : V :=
    nopp (vsum (map (fun c => nmul (sh_p knn y m c x) (vln (sh_p knn y m c x))) (unique_labels y))).
  (** shared_neighbors.py:594 *)
  Definition sh_maxH (y : list Z) : V := vln (nofnat (length (unique_labels y))).
  (** shared_neighbors.py:595, 597 *)
  Definition sh_gain (knn : arr2 bool) (y : option (list Z)) (m : nat) (x : nat) : V :=
    match y with
    | None => n1
    | Some l => nsub (sh_maxH l) (sh_HR knn l m x)
    end.
  (** shared_neighbors.py:579-581: the broadcast error and the assertion
      (without labels the loop over the classes is empty and nothing is
      broadcast) *)
  Definition sh_label_checks (knn : arr2 bool) (y : option (list Z)) (m : nat) : result unit :=
    match y with
    | None => Ok tt
    | Some l =>
        guard (negb ((length l =? m) || (length l =? 1) || (length l =? 0))) ValueError ;;
        guard (negb (forallb (fun x =>
          sum_nat (map (fun c => sh_occ_c knn l m c x) (unique_labels l)) =? sh_occ knn m x)
          (seq 0 m))) AssertionError
    end.
  (** shared_neighbors.py:610, 615 *)
  Definition sh_cell (knn : arr2 bool) (m : nat) (I g : nat -> V) (i r : nat) : V :=
    vsum (map (fun x => nmul (nmul (b2v (at2 knn i x && at2 knn r x)) (I x)) (g x)) (seq 0 m)).
  (** shared_neighbors.py:618-621 *)
  Definition sh_norm (s : Z) (m : nat) (y : option (list Z)) : V :=
    match y with
    | None => nmul (nofZ s) (vln (nofnat m))
    | Some l => nmul (nmul (nofZ s) (vln (nofnat m))) (sh_maxH l)
    end.

  (** shared_neighbors.py:484-636 *)
  Definition simhub (D : arr2 V) (y : option (list Z)) (train test : option (list nat)) (s : Z)
      (ret_dist : bool) (vect_usage : Z) : result (arr2 V) :=
    shi_shape D train ;;
    let n := nrow D in let m := ncol D in
    guard (negb ((0 <? s)%Z && (s <? Z.of_nat m)%Z)) ValueError ;;
    shi_index n train ;;
    let knn := shi_knn s (shi_dist D train) in
    sh_label_checks knn y m ;;
    shi_index n test ;;
    let I x := shi_I m (sh_occ knn m x + 1) in
    let vect := (0 <? vect_usage)%Z || ((vect_usage =? 0)%Z && (m <? 2000)) in
    let Ds := fold_left (fun M i => setrow M i 0 m (fun j =>
                 sh_cell knn m I (sh_gain knn y m) i (shi_row vect train j)))
               (shi_rows n test) (full2 n m n0) in
    Ok (shi_finish ret_dist (sh_norm s m y) test Ds).
End Simhub.
