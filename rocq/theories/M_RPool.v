(** The worker pool of r_precision (knn_classification.py:608-625): tasks travel
    in chunks to the workers, the results travel back as messages in whatever
    order they are ready, and [imap] hands them on in the order of the tasks.
    Workers may be killed at any moment; the pool starts a new worker, which runs
    the initialiser again, but the chunk of the dead one is not given to another.

    Modelled from the documentation of multiprocessing.Pool: a chunk is one
    message, its result is the list of the results of its tasks or the first
    exception of one; the iterator keeps the results that came too early.

    Simplifications: the lock of the counter of random predictions is not
    modelled (C38); a worker that dies with it would only stop more workers. *)
From Coq Require Import String.
From Coq Require Import ZArith List Arith Lia Bool Relations.
From Verif Require Import Py Num Arr Sort Conc S_Neighbors M_IO M_GK M_SNN M_KNN M_MPEmpiric M_SparseKNN M_Start.
Import ListNotations.
Local Open Scope py_scope.
Local Open Scope nat_scope.

Section Machine.
  Context {E T R : Type}.
  (** the worker function with the global variables of its process (knn_classification.py:468-526) *)
  Variable f : E -> T -> result R.
  (** the arguments of the initialiser (knn_classification.py:610) *)
  Variable env : E.

  (** a worker: started, initialised (knn_classification.py:455-466), or at work on chunk number [c] *)
  Inductive rworker := RNew | RReady (e : E) | RBusy (e : E) (c : nat) (chunk : list T).
  (** the chunks nobody has taken, the workers, the results handed on in order, those that came too early,
      and whether the two queues can be used (knn_classification.py:608-615) *)
  Record rstate := RState { rs_queue : list (nat * list T); rs_work : nat -> rworker;
                            rs_items : list (result (list R)); rs_wait : list (nat * result (list R));
                            rs_get : bool; rs_put : bool }.

  (** a result arrives (iterator of imap, knn_classification.py:611-615) *)
  Definition arrive (items : list (result (list R))) (wait : list (nat * result (list R))) (c : nat) (o : result (list R)) :=
    if c =? length items then (items ++ [o], wait) else (items, wait ++ [(c, o)]).

  (** the steps of a pool with [p] workers (knn_classification.py:608-615) *)
  Inductive rwork (p : nat) : rstate -> rstate -> Prop :=
  | r_init s w : w < p -> rs_work s w = RNew ->
      rwork p s (RState (rs_queue s) (upd (rs_work s) w (RReady env)) (rs_items s) (rs_wait s) (rs_get s) (rs_put s))
  | r_take s w e c chunk q : w < p -> rs_work s w = RReady e -> rs_queue s = (c, chunk) :: q -> rs_get s = true ->
      rwork p s (RState q (upd (rs_work s) w (RBusy e c chunk)) (rs_items s) (rs_wait s) (rs_get s) (rs_put s))
  | r_result s w e c chunk items wait : w < p -> rs_work s w = RBusy e c chunk -> rs_put s = true ->
      arrive (rs_items s) (rs_wait s) c (mapM (f e) chunk) = (items, wait) ->
      rwork p s (RState (rs_queue s) (upd (rs_work s) w (RReady e)) items wait (rs_get s) (rs_put s))
  | r_order s o l1 l2 : rs_wait s = l1 ++ (length (rs_items s), o) :: l2 ->
      rwork p s (RState (rs_queue s) (rs_work s) (rs_items s ++ [o]) (l1 ++ l2) (rs_get s) (rs_put s)).
  (** worker [w] is killed and replaced; it may have held a lock of a queue (any moment of
      knn_classification.py:608-625) *)
  Inductive rkill (p : nat) (w : nat) : rstate -> rstate -> Prop :=
  | r_kill s g u : w < p -> (g = true -> rs_get s = true) -> (u = true -> rs_put s = true) ->
      rkill p w s (RState (rs_queue s) (upd (rs_work s) w RNew) (rs_items s) (rs_wait s) g u).
  (** one step (knn_classification.py:608-625) *)
  Definition rstep (p : nat) (s s' : rstate) : Prop := rwork p s s' \/ exists w, rkill p w s s'.
  (** the beginning (knn_classification.py:608-615) *)
  Definition rstart (chunks : list (list T)) : rstate :=
    RState (combine (seq 0 (length chunks)) chunks) (fun _ => RNew) [] [] true true.
  (** any number of steps (knn_classification.py:608-625) *)
  Definition rhistory (p : nat) : rstate -> rstate -> Prop := clos_refl_trans_1n _ (rstep p).

  (** a history of [n] steps in which no worker is killed (knn_classification.py:608-625) *)
  Inductive quiet (p : nat) : nat -> rstate -> rstate -> Prop :=
  | q_refl s : quiet p 0 s s
  | q_step n s s1 s2 : quiet p n s s1 -> rwork p s1 s2 -> quiet p (Datatypes.S n) s s2.

  (** how the loop over the results ends (knn_classification.py:611-625): with the first exception that is
      handed on, or with all results *)
  Inductive rends (chunks : list (list T)) (s : rstate) : result (list R) -> Prop :=
  | re_raise pre e post : rs_items s = map Ok pre ++ Raise e :: post -> rends chunks s (Raise e)
  | re_ok ls : rs_items s = map Ok ls -> length ls = length chunks -> rends chunks s (Ok (concat ls)).
End Machine.
Arguments RNew {E T}. Arguments RReady {E T}. Arguments RBusy {E T}.
Arguments RState {E T R}. Arguments rs_queue {E T R}. Arguments rs_work {E T R}. Arguments rs_items {E T R}.
Arguments rs_wait {E T R}. Arguments rs_get {E T R}. Arguments rs_put {E T R}.

Section RPrecision.
  Context {V : Type} {N : Num V}.
  Variable argpart : list V -> list nat -> list nat.
  Variable rp : nat -> list nat -> list nat.
  Variable sh : nat -> nat -> list nat -> list nat.
  Variable vsum : list V -> V.

  (** knn_classification.py:528-644 r_precision with [p] = n_jobs worker processes, any of which may be
      killed, started in any way: they get everything they read as arguments of the initialiser, which
      arrive as copies.  The chunks have any sizes (the code takes 100). *)
  Inductive r_precision_pool (p : nat) (dense : bool) (S : smat V) (target : list Z) (metric : string) (yp : nat) :
      result rp_out -> Prop :=
  | rpp_check e :
      (let shape := if dense then Dense [srow S; scol S] else Sparse (srow S) (scol S) in
       check_distance_matrix_shape shape ;;
       check_distance_matrix_shape_fits_labels shape (Dense [length target]) ;;
       check_valid_metric_parameter metric ;;
       guard (negb (is_sim metric) || dense) NotImplementedError) = Raise e ->
      r_precision_pool p dense S target metric yp (Raise e)
  | rpp_run cl y rel chunks s rs :
      (let shape := if dense then Dense [srow S; scol S] else Sparse (srow S) (scol S) in
       check_distance_matrix_shape shape ;;
       check_distance_matrix_shape_fits_labels shape (Dense [length target]) ;;
       check_valid_metric_parameter metric ;;
       guard (negb (is_sim metric) || dense) NotImplementedError) = Ok tt ->
      cl = unique_labels (target ++ [int_min]) ->
      y = map (class_index cl) target ->
      rel = map (fun c => (Z.of_nat c - 1)%Z) (bincount y 0) ->
      concat chunks = seq 0 (srow S) ->
      rhistory (fun e i => let '(M, y, rel) := e in rprec_worker argpart rp sh M y rel yp (class_index cl int_min) i)
        (S, y, rel) p (rstart chunks) s ->
      rends chunks s rs ->
      r_precision_pool p dense S target metric yp
        (let* rs := rs in
         let item := map fst rs in
         let w := map (fun c => nth c rel 0%Z) y in
         guard (fold_right Z.add 0%Z w =? 0)%Z ZeroDivisionError ;;
         Ok (RpOut (ndiv (vsum item) (nofnat (srow S)))
                   (ndiv (vsum (map (fun i => nmul (nth i item nnan) (nofZ (nth i w 0%Z))) (seq 0 (srow S))))
                         (nofZ (fold_right Z.add 0%Z w)))
                   item rel y
                   (map (fun r => map (fun c => nth c cl 0%Z) (snd r)) rs))).
End RPrecision.
