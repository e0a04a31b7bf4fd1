(** Model of the parallel branch of /repo/hub_toolbox/shared_neighbors.py:
    snn_sample (lines 125-142) with its worker functions (27-50).  The serial
    branch is [snn_sample] of M_SNN.v. *)
From Coq Require Import String.
From Coq Require Import ZArith List Arith Lia Bool.
From Verif Require Import Py Num Arr Sort Conc S_Neighbors M_IO M_SNN.
Import ListNotations.
Local Open Scope py_scope.

Section SNNSample.
  Context {V : Type} {N : Num V}.
  (** np.argsort (shared_neighbors.py:38, 149) *)
  Variable argsort : list V -> list nat.

  (** shared_neighbors.py:35-40 _snns_my_hood: the cells of [knn] set to True
      by the task of row [i]; [dist] was inherited by the worker (27-33) *)
  Definition snns_task1 (metric : string) (k : Z) (dist : arr2 V) (i : nat) : list (cell * bool) :=
    map (fun x => ((i, x), true)) (prefix (snn_order metric (argsort (rowl dist i))) k).

  (** shared_neighbors.py:42-50 _snns_our_hood: the task of row [i] overwrites
      row [i] of [D_snn]; it reads the shared [knn] *)
  Definition snns_task2 (metric : string) (k : Z) (s : nat) (train : list nat)
      (knn : cell -> bool) (i : nat) : list (cell * V) :=
    map (fun j => ((i, j), snn_val metric k
           (snn_shared s (fun x => knn (i, x)) (fun x => knn (nth j train 0, x))))) (seq 0 s).

  (** shared_neighbors.py:117-120 *)
  Definition snns_rows (n : nat) (test : option (list nat)) : list nat :=
    match test with None => seq 0 n | Some t => t end.

  (** shared_neighbors.py:161-168: self values and the rows handed out *)
  Definition snns_finish (metric : string) (train : list nat) (test : option (list nat))
      (Ds : arr2 V) : arr2 V :=
    match test with
    | None => fill_diagonal Ds (snn_self metric)
    | Some t => Arr2 (length t) (ncol Ds)
                  (fun a b => at2 (set_cells train (snn_self metric) Ds) (nth a t 0) b)
    end.

  (** shared_neighbors.py:52-168 snn_sample with n_jobs > 1: all outcomes.  The
      second [imap] (139-142) starts when the first one (135-138) is exhausted;
      both shared buffers start zeroed (128-131).  An index of [test_ind]
      outside the matrix makes its task fail with IndexError, which imap
      re-raises.  Simplification: a matrix of size 0, for which numpy versions
      disagree on [np.frombuffer], is treated like any other. *)
  Inductive snn_sample_parallel (D : arr2 V) (k : Z) (metric : string) (train : list nat)
      (test : option (list nat)) : result (arr2 V) -> Prop :=
  | ss_shape e : check_sample_shape_fits (Dense [nrow D; ncol D]) (Dense [length train]) = Raise e ->
      snn_sample_parallel D k metric train test (Raise e)
  | ss_metric e : check_sample_shape_fits (Dense [nrow D; ncol D]) (Dense [length train]) = Ok tt ->
      check_valid_metric_parameter metric = Raise e ->
      snn_sample_parallel D k metric train test (Raise e)
  | ss_train i : check_sample_shape_fits (Dense [nrow D; ncol D]) (Dense [length train]) = Ok tt ->
      check_valid_metric_parameter metric = Ok tt ->
      In i train -> nrow D <= i ->
      snn_sample_parallel D k metric train test (Raise IndexError)
  | ss_test i : check_sample_shape_fits (Dense [nrow D; ncol D]) (Dense [length train]) = Ok tt ->
      check_valid_metric_parameter metric = Ok tt ->
      (forall i, In i train -> i < nrow D) ->
      In i (snns_rows (nrow D) test) -> nrow D <= i ->
      snn_sample_parallel D k metric train test (Raise IndexError)
  | ss_ok knn data :
      check_sample_shape_fits (Dense [nrow D; ncol D]) (Dense [length train]) = Ok tt ->
      check_valid_metric_parameter metric = Ok tt ->
      (forall i, In i train -> i < nrow D) ->
      (forall i, In i (snns_rows (nrow D) test) -> i < nrow D) ->
      pool_run celleq (fun _ => false)
        (map (snns_task1 metric k (set_cells train (snn_exclude metric) D)) (seq 0 (nrow D))) knn ->
      pool_run celleq (fun _ => n0)
        (map (snns_task2 metric k (ncol D) train knn) (snns_rows (nrow D) test)) data ->
      snn_sample_parallel D k metric train test
        (Ok (snns_finish metric train test (Arr2 (nrow D) (ncol D) (fun i j => data (i, j))))).

  (** shared_neighbors.py:52-168 snn_sample with the number of jobs as given
      (125-126: -1 stands for [cpu_count()]) *)
  Definition snn_sample_jobs (cpus : Z) (jobs : Z) (D : arr2 V) (k : Z) (metric : string)
      (train : list nat) (test : option (list nat)) (r : result (arr2 V)) : Prop :=
    let jobs := if (jobs =? -1)%Z then cpus else jobs in
    if (1 <? jobs)%Z then snn_sample_parallel D k metric train test r
    else r = snn_sample argsort D k metric train test.
End SNNSample.
