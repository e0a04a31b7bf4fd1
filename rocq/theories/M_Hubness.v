(** Model of the function [hubness] in /repo/hub_toolbox/hubness.py:94-302 and
    its worker 67-92. *)
From Coq Require Import String.
From Coq Require Import ZArith List Arith Lia Bool Reals.
From Verif Require Import Py Num Arr Sort Conc S_Neighbors M_IO.
Import ListNotations.
Local Open Scope py_scope.

Section Hubness.
  Context {V : Type} {N : Num V}.
  (** np.argpartition: result for an array and (normalised) kth positions *)
  Variable argpart : list V -> list nat -> list nat.

  (** hubness.py:168-172 / 238-242: [if k >= m: k = m - 1] *)
  Definition hub_k (k : Z) (m : nat) : Z :=
    if (Z.of_nat m <=? k)%Z then (Z.of_nat m - 1)%Z else k.

  (** hubness.py:173-180 (parallel) / 243-250 (serial): self distance *)
  Definition hub_dself (metric : string) : V := if is_sim metric then nninf else ninf.

  (** np.arange(a, b) (used at hubness.py:176, 180, 246, 250) *)
  Definition zarange (a b : Z) : list Z :=
    map (fun i => (a + Z.of_nat i)%Z) (seq 0 (Z.to_nat (b - a))).

  (** hubness.py:173-180, parallel code: [kth = arange(k)] for distances,
      [arange(m - k, m)] for similarities *)
  Definition hub_kth_par (metric : string) (n m : nat) (k : Z) : list Z :=
    if is_sim metric then zarange (Z.of_nat m - k) (Z.of_nat m) else zarange 0 k.

  (** hubness.py:243-250, serial code: [arange(n - k, n)] for similarities *)
  Definition hub_kth_ser (metric : string) (n m : nat) (k : Z) : list Z :=
    if is_sim metric then zarange (Z.of_nat n - k) (Z.of_nat n) else zarange 0 k.

  (** hubness.py:186-198 / 254-267: copy, self distances, non-finite values.
      [sparse = true] is the [issparse(D)] branch, which does nothing here. *)
  Definition hub_prepare (sparse : bool) (metric : string) (D : arr2 V) : arr2 V :=
    if sparse then D else
    let D1 := if nrow D =? ncol D then fill_diagonal D (hub_dself metric) else D in
    mask_value D1 (fun x => negb (nisfin x)) (hub_dself metric).

  (** [l[i] = v] (used at hubness.py:76, 277) *)
  Definition list_set {A} (l : list A) (i : nat) (v : A) : list A :=
    map (fun j => if j =? i then v else nth j l v) (seq 0 (length l)).

  (** hubness.py:71-80 / 272-281: one row, self distance / zeros / non-finite *)
  Definition hub_row (metric : string) (D : arr2 V) (i : nat) : list V :=
    let d := rowl D i in
    let d := if nrow D =? ncol D then list_set d i (hub_dself metric)
             else if is_dist metric
                  then map (fun x => if neq x n0 then hub_dself metric else x) d
                  else d in
    map (fun x => if nisfin x then x else hub_dself metric) d.

  (** hubness.py:81-91 / 282-292: nearest neighbours of one row.  [shuffle] is
      [Some rp] (the random permutation drawn for the row) or [None]. *)
  Definition hub_order (metric : string) (l : list nat) : list nat :=
    if is_sim metric then rev l else l.

  (** hubness.py:71-91 / 272-292: the neighbours of row [i] *)
  Definition hub_row_nn (metric : string) (kth : list Z) (shuffle : option (list nat))
      (d : list V) : result (list nat) :=
    let m := length d in
    match shuffle with
    | Some rp =>
        let d2 := take nnan d rp in
        let* d2idx := np_argpartition argpart d2 kth in
        Ok (hub_order metric (take 0 rp (take 0 d2idx (map (py_norm m) kth))))
    | None =>
        let* d_idx := np_argpartition argpart d kth in
        Ok (hub_order metric (take 0 d_idx (map (py_norm m) kth)))
    end.

  (** What hubness returns besides S_k: neighbour lists and k-occurrence.
      (S_k = skewness of N_k, see [skew] below.) (hubness.py:228, 302) *)
  Record hub_out := HubOut { out_Dk : list (list nat); out_Nk : list nat }.

  (** the random permutation of row [i], if [shuffle_equal] (hubness.py:85, 286) *)
  Definition hub_shuffle (shuffle_equal : bool) (rps : nat -> list nat) (i : nat) :
    option (list nat) := if shuffle_equal then Some (rps i) else None.

  (** hubness.py:230-302 _hubness_no_multiprocessing.  The metric check comes
      first; a negative [k] makes [np.zeros((n, k))] raise ValueError; the loop
      over rows fills [D_k] row by row. *)
  Definition hubness_serial (sparse : bool) (D : arr2 V) (k : Z) (metric : string)
      (shuffle_equal : bool) (rps : nat -> list nat) : result hub_out :=
    check_valid_metric_parameter metric ;;
    let n := nrow D in let m := ncol D in
    let k := hub_k k m in
    guard (k <? 0)%Z ValueError ;;
    let kth := hub_kth_ser metric n m k in
    let D := hub_prepare sparse metric D in
    let* Dk := mapM (fun i => hub_row_nn metric kth (hub_shuffle shuffle_equal rps i)
                                         (hub_row metric D i)) (seq 0 n) in
    Ok (HubOut Dk (bincount (concat Dk) m)).

  (** hubness.py:67-92 _hubness_nearest_neighbors as a pool task: the writes
      [D_k[i, :] = ...] into the shared buffer. *)
  Definition hub_cell := (nat * nat)%type.
  (** equality of positions of the buffer of hubness.py:205-206 *)
  Definition cell_eq (a b : hub_cell) : bool := (fst a =? fst b) && (snd a =? snd b).

  (** hubness.py:88, 91: the writes of task [i] *)
  Definition hub_task (i : nat) (row : list nat) : list (hub_cell * nat) :=
    map (fun c => ((i, c), nth c row 0)) (seq 0 (length row)).

  (** reading the shared n x k buffer back (hubness.py:205-206, 220) *)
  Definition read_rows {A} (n k : nat) (mm : hub_cell -> A) : list (list A) :=
    map (fun i => map (fun c => mm (i, c)) (seq 0 k)) (seq 0 n).

  (** hubness.py:162-228, n_jobs <> 1: all outcomes of the worker pool.  The
      shared buffer is zero initialised.  [seeded] = random_state is not None. *)
  Inductive hubness_parallel (sparse : bool) (D : arr2 V) (k : Z) (metric : string)
      (shuffle_equal : bool) (rps : nat -> list nat) (seeded : bool) :
      result hub_out -> Prop :=
  | hp_seed : seeded = true ->
      hubness_parallel sparse D k metric shuffle_equal rps seeded (Raise ValueError)
  | hp_metric e : seeded = false -> check_valid_metric_parameter metric = Raise e ->
      hubness_parallel sparse D k metric shuffle_equal rps seeded (Raise e)
  | hp_negk : seeded = false -> check_valid_metric_parameter metric = Ok tt ->
      (hub_k k (ncol D) < 0)%Z ->
      hubness_parallel sparse D k metric shuffle_equal rps seeded (Raise ValueError)
  | hp_task_raise i e : seeded = false -> check_valid_metric_parameter metric = Ok tt ->
      (0 <= hub_k k (ncol D))%Z -> i < nrow D ->
      hub_row_nn metric (hub_kth_par metric (nrow D) (ncol D) (hub_k k (ncol D)))
                 (hub_shuffle shuffle_equal rps i)
                 (hub_row metric (hub_prepare sparse metric D) i) = Raise e ->
      hubness_parallel sparse D k metric shuffle_equal rps seeded (Raise e)
  | hp_ok rows mm Dk : seeded = false -> check_valid_metric_parameter metric = Ok tt ->
      (0 <= hub_k k (ncol D))%Z ->
      mapM (fun i => hub_row_nn metric
                       (hub_kth_par metric (nrow D) (ncol D) (hub_k k (ncol D)))
                       (hub_shuffle shuffle_equal rps i)
                       (hub_row metric (hub_prepare sparse metric D) i))
           (seq 0 (nrow D)) = Ok rows ->
      pool_run cell_eq (fun _ => 0)
               (map (fun i => hub_task i (nth i rows [])) (seq 0 (nrow D))) mm ->
      Dk = read_rows (nrow D) (Z.to_nat (hub_k k (ncol D))) mm ->
      hubness_parallel sparse D k metric shuffle_equal rps seeded
        (Ok (HubOut Dk (bincount (concat Dk) (ncol D)))).
End Hubness.

Arguments HubOut : clear implicits.

(** scipy.stats.skew (bias=True), used at hubness.py:222 and 297, over the
    reals: third central moment over the 3/2 power of the second, and 0 for a
    constant vector. *)
Local Open Scope R_scope.
(** sum, for scipy.stats.skew (hubness.py:222, 297) *)
Definition sumR (l : list R) : R := fold_right Rplus 0 l.
(** mean, for scipy.stats.skew (hubness.py:222, 297) *)
Definition meanR (l : list R) : R := sumR l / INR (length l).
(** central moment, for scipy.stats.skew (hubness.py:222, 297) *)
Definition cmoment (p : nat) (l : list R) : R :=
  meanR (map (fun x => (x - meanR l) ^ p) l).
(** scipy.stats.skew (hubness.py:222, 297) *)
Definition skewR (l : list R) : R :=
  if Req_EM_T (cmoment 2 l) 0 then 0
  else cmoment 3 l / (cmoment 2 l * sqrt (cmoment 2 l)).
(** hubness.py:222, 297: [S_k = stats.skew(N_k)] *)
Definition hub_Sk (o : hub_out) : R := skewR (map INR (out_Nk o)).
