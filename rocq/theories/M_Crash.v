(** Worker processes that are killed, at any moment (by the kernel when memory runs
    out, by an administrator, by a fault in a library).

    multiprocessing.Pool replaces a worker that died by a new one, but the tasks
    that the dead one had taken are not given to another: the parent waits for as
    many results as there are tasks.  A worker that dies while it holds one of the
    locks of the two queues leaves that lock taken for ever.  Workers are started
    by fork (M_Start.v has the other methods).

    Simplifications: tasks travel in chunks, a chunk runs one after the other and
    sends one result; locks other than those of the queues (the progress counter,
    C38) are not modelled, they would only stop more workers. *)
From Coq Require Import String.
From Coq Require Import ZArith List Arith Lia Bool Relations.
From Verif Require Import Py Num Arr Sort Conc S_Neighbors M_IO M_Dist M_Hubness M_SNN M_LS M_Centering M_MPEmpiric M_Simhub M_HubnessClass M_Approx M_Start.
Import ListNotations.
Local Open Scope py_scope.

Section Machine.
  Context {C V T : Type} (ceq : C -> C -> bool).
  (** the writes of a task (hubness.py:67-92 and the other worker functions) *)
  Variable writes : T -> list (C * V).

  (** what a worker is doing: waiting for a task, or having these writes still to
      do before it sends its result (hubness.py:207-217) *)
  Inductive wstate := WIdle | WBusy (todo : list (C * V)).
  (** the shared buffer, the workers, the tasks nobody has taken yet, the number of
      results that arrived, and whether the queues of tasks and of results can be
      used (hubness.py:205-217) *)
  Record kstate := KState { ks_main : C -> V; ks_work : nat -> wstate; ks_queue : list T; ks_done : nat;
                            ks_get : bool; ks_put : bool }.

  (** the steps of a pool with [p] workers (hubness.py:207-217, global_scaling.py:375-383) *)
  Inductive kwork (p : nat) : kstate -> kstate -> Prop :=
  | k_take s w t q : w < p -> ks_work s w = WIdle -> ks_queue s = t :: q -> ks_get s = true ->
      kwork p s (KState (ks_main s) (upd (ks_work s) w (WBusy (writes t))) q (ks_done s) (ks_get s) (ks_put s))
  | k_write s w c v l : w < p -> ks_work s w = WBusy ((c, v) :: l) ->
      kwork p s (KState (do_write ceq (ks_main s) (c, v)) (upd (ks_work s) w (WBusy l)) (ks_queue s) (ks_done s)
                        (ks_get s) (ks_put s))
  | k_result s w : w < p -> ks_work s w = WBusy [] -> ks_put s = true ->
      kwork p s (KState (ks_main s) (upd (ks_work s) w WIdle) (ks_queue s) (S (ks_done s)) (ks_get s) (ks_put s)).
  (** worker [w] is killed and replaced; it may have held a lock of a queue
      (any moment of hubness.py:207-217) *)
  Inductive kkill (p : nat) (w : nat) : kstate -> kstate -> Prop :=
  | k_kill s g u : w < p -> (g = true -> ks_get s = true) -> (u = true -> ks_put s = true) ->
      kkill p w s (KState (ks_main s) (upd (ks_work s) w WIdle) (ks_queue s) (ks_done s) g u).
  (** one step, with or without a worker being killed (hubness.py:207-217) *)
  Definition kstep (p : nat) (s s' : kstate) : Prop := kwork p s s' \/ exists w, kkill p w s s'.

  (** the beginning (hubness.py:205-209) *)
  Definition kstart (m : C -> V) (tasks : list T) : kstate := KState m (fun _ => WIdle) tasks 0 true true.
  (** any number of steps (hubness.py:207-217) *)
  Definition khistory (p : nat) (s s' : kstate) : Prop := clos_refl_trans_1n _ (kstep p) s s'.
  (** all results have arrived, the call goes on after the pool (hubness.py:217-220) *)
  Definition returns (tasks : list T) (s : kstate) : Prop := ks_done s = length tasks.
End Machine.
Arguments WIdle {C V}. Arguments WBusy {C V}.
Arguments KState {C V T}. Arguments ks_main {C V T}. Arguments ks_work {C V T}. Arguments ks_queue {C V T}.
Arguments ks_done {C V T}. Arguments ks_get {C V T}. Arguments ks_put {C V T}.

(** the writes of a chunk of tasks (the argument chunksize of imap, global_scaling.py:382, and what
    map does without being asked, approximate.py:917-921) *)
Definition chunk_writes {C V T} (writes : T -> list (C * V)) (chunk : list T) : list (C * V) := concat (map writes chunk).
(** a pool with [p] workers, any of which may be killed, and tasks in any chunks:
    the buffer is [m] at the beginning and [m'] when the pool returns (hubness.py:207-220) *)
Definition killed_pool {C V} (ceq : C -> C -> bool) (p : nat) (m : C -> V) {T} (tasks : list T)
    (writes : T -> list (C * V)) (m' : C -> V) : Prop :=
  exists chunks s, concat chunks = tasks /\ khistory ceq (chunk_writes writes) p (kstart m chunks) s /\
    returns chunks s /\ m' = ks_main s.

Section Functions.
  Context {V : Type} {N : Num V}.
  Variables (vexp vln : V -> V) (vsum : list V -> V) (vpow : V -> V -> V).
  Variable part : list V -> list nat -> list V.
  Variable argpart : list V -> list nat -> list nat.
  Variable argsort : list V -> list nat.

  (** hubness.py:162-228 hubness with [p] = n_jobs processes.
      [rps i] is the permutation drawn for row [i]. *)
  Inductive hubness_killed (p : nat) (sparse : bool) (D : arr2 V) (k : Z) (metric : string)
      (shuffle_equal : bool) (rps : nat -> list nat) : result hub_out -> Prop :=
  | hk_metric e : check_valid_metric_parameter metric = Raise e ->
      hubness_killed p sparse D k metric shuffle_equal rps (Raise e)
  | hk_negk : check_valid_metric_parameter metric = Ok tt -> (hub_k k (ncol D) < 0)%Z ->
      hubness_killed p sparse D k metric shuffle_equal rps (Raise ValueError)
  | hk_task i e : check_valid_metric_parameter metric = Ok tt -> (0 <= hub_k k (ncol D))%Z -> i < nrow D ->
      hub_row_nn argpart metric (hub_kth_par metric (nrow D) (ncol D) (hub_k k (ncol D)))
                 (hub_shuffle shuffle_equal rps i) (hub_row metric (hub_prepare sparse metric D) i) = Raise e ->
      hubness_killed p sparse D k metric shuffle_equal rps (Raise e)
  | hk_ok rows mm : check_valid_metric_parameter metric = Ok tt -> (0 <= hub_k k (ncol D))%Z ->
      mapM (fun i => hub_row_nn argpart metric (hub_kth_par metric (nrow D) (ncol D) (hub_k k (ncol D)))
                       (hub_shuffle shuffle_equal rps i) (hub_row metric (hub_prepare sparse metric D) i))
           (seq 0 (nrow D)) = Ok rows ->
      killed_pool cell_eq p (fun _ => 0) (seq 0 (nrow D)) (fun i => hub_task i (nth i rows [])) mm ->
      hubness_killed p sparse D k metric shuffle_equal rps
        (let Dk := read_rows (nrow D) (Z.to_nat (hub_k k (ncol D))) mm in
         Ok (HubOut Dk (bincount (concat Dk) (ncol D)))).

  (** local_scaling.py:221-311 local_scaling with n_jobs = [p] > 1. *)
  Inductive local_scaling_killed (p : nat) (D : arr2 V) (k : Z) (metric : string) (test : option (list nat)) :
      result (arr2 V) -> Prop :=
  | lk_fail e : ls_radii part D k metric test = Raise e -> local_scaling_killed p D k metric test (Raise e)
  | lk_ok rs r data : ls_radii part D k metric test = Ok rs ->
      killed_pool Nat.eqb p (fun _ => n0) (seq 0 (nrow D)) (fun i => [(i, nth i rs nnan)]) r ->
      killed_pool celleq p (fun _ => n0) (seq 0 (nrow D))
        (ls_task vexp metric (fill_diagonal D (ls_exclude metric)) (nrow D) r) data ->
      local_scaling_killed p D k metric test
        (Ok (fill_diagonal (Arr2 (nrow D) (nrow D) (fun i j => data (i, j))) (ls_self metric))).

  (** local_scaling.py:477-515 nicdm with n_jobs = [p] > 1 *)
  Inductive nicdm_killed (p : nat) (D : arr2 V) (k : Z) (metric : string) (test : option (list nat)) :
      result (arr2 V) -> Prop :=
  | nk_fail e : nicdm_radii vsum part D k metric test = Raise e -> nicdm_killed p D k metric test (Raise e)
  | nk_ok rs r data : nicdm_radii vsum part D k metric test = Ok rs ->
      killed_pool Nat.eqb p (fun _ => n0) (seq 0 (nrow D)) (fun i => [(i, nth i rs nnan)]) r ->
      killed_pool celleq p (fun _ => n0) (seq 0 (nrow D))
        (nicdm_task (local_geomean vexp vln vsum (map r (seq 0 (nrow D)))) (fill_diagonal D ninf) (nrow D) r) data ->
      nicdm_killed p D k metric test (Ok (Arr2 (nrow D) (nrow D) (fun i j => data (i, j)))).

  (** shared_neighbors.py:243-295 shared_nearest_neighbors with n_jobs = [p] > 1.  One pool
      does both phases; here the second phase starts with a new pool, which allows
      more histories. *)
  Inductive snn_killed (p : nat) (D : arr2 V) (k : Z) (metric : string) : result (arr2 V) -> Prop :=
  | sk_check e : (check_distance_matrix_shape (Dense [nrow D; ncol D]) ;; check_valid_metric_parameter metric) = Raise e ->
      snn_killed p D k metric (Raise e)
  | sk_task i e : (check_distance_matrix_shape (Dense [nrow D; ncol D]) ;; check_valid_metric_parameter metric) = Ok tt ->
      i < nrow D -> snn_hood argpart metric k (fill_diagonal D (snn_exclude metric)) i = Raise e ->
      snn_killed p D k metric (Raise e)
  | sk_ok hoods knn sim : (check_distance_matrix_shape (Dense [nrow D; ncol D]) ;; check_valid_metric_parameter metric) = Ok tt ->
      mapM (snn_hood argpart metric k (fill_diagonal D (snn_exclude metric))) (seq 0 (nrow D)) = Ok hoods ->
      killed_pool celleq p (fun _ => false) (seq 0 (nrow D)) (fun i => snn_task1 i (nth i hoods [])) knn ->
      killed_pool celleq p (fun _ => n0) (seq 0 (nrow D)) (snn_task2 metric k (nrow D) knn) sim ->
      snn_killed p D k metric (Ok (snn_finish metric (Arr2 (nrow D) (nrow D) (fun i j => sim (i, j))))).

  (** shared_neighbors.py:385-482 simhubIN with n_jobs = [p] > 1 *)
  Inductive simhubIN_killed (p : nat) (D : arr2 V) (train test : option (list nat)) (s : Z) (ret_dist : bool) :
      result (arr2 V) -> Prop :=
  | shk_raise e : shi_checks D train test = Raise e -> simhubIN_killed p D train test s ret_dist (Raise e)
  | shk_ok knn data : shi_checks D train test = Ok tt ->
      killed_pool celleq p (fun _ => false) (seq 0 (nrow D)) (shi_task1 argsort s (shi_dist D train)) knn ->
      (let m := ncol D in
       let K := Arr2 (nrow D) m (fun a b => knn (a, b)) in
       killed_pool celleq p (fun _ => n0) (shi_rows (nrow D) test)
         (shi_task2 vsum K m (fun x => shi_I vln m (shi_N K m x)) (m <? 2000) train) data) ->
      simhubIN_killed p D train test s ret_dist
        (Ok (shi_finish ret_dist (shi_norm vln s (ncol D)) test (Arr2 (nrow D) (ncol D) (fun a b => data (a, b))))).

  (** centering.py:239-281 localized_centering with n_jobs = [p] > 1 *)
  Inductive localized_centering_killed (p : nat) (X : arr2 V) (Y : option (arr2 V)) (kappa : Z) (gamma : V) :
      result (arr2 V) -> Prop :=
  | lck_dot e : matmul vsum (unit_rows vsum X)
        (transpose (unit_rows vsum (match Y with None => X | Some Y => Y end))) = Raise e ->
      localized_centering_killed p X Y kappa gamma (Raise e)
  | lck_task sim S e :
      let W := unit_rows vsum (match Y with None => X | Some Y => Y end) in
      matmul vsum (unit_rows vsum X) (transpose W) = Ok sim -> matmul vsum W (transpose W) = Ok S ->
      mapM (local_affinity vsum argpart W S kappa) (seq 0 (nrow W)) = Raise e ->
      localized_centering_killed p X Y kappa gamma (Raise e)
  | lck_ok sim S la buf :
      let W := unit_rows vsum (match Y with None => X | Some Y => Y end) in
      matmul vsum (unit_rows vsum X) (transpose W) = Ok sim -> matmul vsum W (transpose W) = Ok S ->
      mapM (local_affinity vsum argpart W S kappa) (seq 0 (nrow W)) = Ok la ->
      killed_pool Nat.eqb p (fun _ => n0) (seq 0 (nrow W)) (fun i => [(i, nth i la nnan)]) buf ->
      localized_centering_killed p X Y kappa gamma (Ok (lcent_finish vpow sim (nrow W) buf gamma)).

  (** centering.py:403-414, 425-436: the local centroids with n_jobs = [p] > 1 *)
  Inductive dsl_centroids_killed (p : nat) (D Y : arr2 V) (k : Z) : result (nat -> nat -> V) -> Prop :=
  | dck_fail e : mapM (dsl_nn argpart D k) (seq 0 (nrow D)) = Raise e -> dsl_centroids_killed p D Y k (Raise e)
  | dck_ok nn buf : mapM (dsl_nn argpart D k) (seq 0 (nrow D)) = Ok nn ->
      killed_pool celleq p (fun _ => n0) (seq 0 (nrow D))
        (fun i => map (fun f => ((i, f), rows_mean vsum Y (nth i nn []) f)) (seq 0 (ncol Y))) buf ->
      dsl_centroids_killed p D Y k (Ok (fun i f => buf (i, f))).

  (** centering.py:388-449 dis_sim_local with n_jobs = [p] > 1, without [Y] *)
  Inductive dis_sim_local_killed (p : nat) (X : arr2 V) (k : Z) : result (arr2 V) -> Prop :=
  | dsk_bad e : euclidean_distances_sq vsum X X = Raise e -> dis_sim_local_killed p X k (Raise e)
  | dsk_self D0 c : euclidean_distances_sq vsum X X = Ok D0 ->
      dsl_centroids_killed p (fill_diagonal D0 ninf) X k c ->
      dis_sim_local_killed p X k
        (let* c := c in
         let D := fill_diagonal D0 ninf in
         let s := dsl_sq vsum X c in
         Ok (fill_diagonal (Arr2 (nrow D) (ncol D) (fun i j => nsub (nsub (at2 D i j) (s i)) (s j))) nninf)).

  Variable rdist : nat -> (nat -> V) -> (nat -> V) -> V.
  (** hubness.py:484-528 Hubness._k_neighbors with n_jobs = [p] <> 1 *)
  Inductive k_neighbors_killed (p : nat) (X Y : arr2 V) (metric : string) (k : nat) (kth : list Z)
      (start end_ : nat) (bs : Z) : result (list (list nat)) -> Prop :=
  | knk_zero : bs = 0%Z -> k_neighbors_killed p X Y metric k kth start end_ bs (Raise ZeroDivisionError)
  | knk_fail nb i e : n_batches (nrow X) bs = Ok nb -> i < nb ->
      batch_nn rdist argpart X Y metric kth start end_ (batch_rows (Z.to_nat bs) (nrow X) i) = Raise e ->
      k_neighbors_killed p X Y metric k kth start end_ bs (Raise e)
  | knk_ok nb nns buf : n_batches (nrow X) bs = Ok nb ->
      mapM (fun i => batch_nn rdist argpart X Y metric kth start end_ (batch_rows (Z.to_nat bs) (nrow X) i)) (seq 0 nb) = Ok nns ->
      killed_pool cell_eq p (fun _ => 0) (seq 0 nb)
        (fun i => batch_task (Z.to_nat bs) (nrow X) k i (nth i nns [])) buf ->
      k_neighbors_killed p X Y metric k kth start end_ bs
        (Ok (map (fun i => map (fun c => buf (i, c)) (seq 0 k)) (seq 0 (nrow X)))).

  Variable sdist : string -> nat -> (nat -> V) -> (nat -> V) -> V.
  Variable vstore : f64 -> V.
  (** approximate.py:963-1007 _transform_mp without an index, n_jobs = [p] <> 1 *)
  Inductive transform_mp_killed (p : nat) (metric : string) (ns : nat) (Xt X : arr2 V) : result (arr2 V) -> Prop :=
  | tmk_metric : known_metric metric = false -> transform_mp_killed p metric ns Xt X (Raise ValueError)
  | tmk_check e : known_metric metric = true -> trans_check X Xt = Raise e ->
      transform_mp_killed p metric ns Xt X (Raise e)
  | tmk_ok buf : known_metric metric = true -> trans_check X Xt = Ok tt ->
      (let D_test := cross_dists sdist metric X Xt in
       let D_train := fill_diagonal (self_dists sdist metric Xt) ninf in
       killed_pool cell_eq p (fun _ => n0) (seq 0 (nrow X))
         (fun i => map (fun j => ((i, j), mp_cell vstore D_test D_train ns i j)) (seq 0 (nrow Xt))) buf) ->
      transform_mp_killed p metric ns Xt X (Ok (Arr2 (nrow X) (nrow Xt) (fun i j => buf (i, j)))).

  (** global_scaling.py:347-412 _mutual_proximity_empiric_sparse of a similarity matrix with
      [p] processes *)
  Definition mp_empiric_sparse_killed (p : nat) (S : smat V) (min_nnz : nat) (r : result (smat V)) : Prop :=
    exists data,
      killed_pool pos_eq p (fun _ => n0) (mpes_tasks S)
        (fun ij => [(ij, mpes_sec_dist S min_nnz (fst ij) (snd ij))]) data /\
      r = Ok (mpes_assemble S min_nnz data).
End Functions.
