(** How worker processes are started, and what that means for the buffers they
    fill.

    multiprocessing can start workers by fork (Linux up to Python 3.13), or by
    spawn or forkserver (macOS, Windows, Linux from Python 3.14 on).  A forked
    worker inherits the memory of its parent, shared buffers included.  For the
    other methods the [initargs] of the pool are pickled: a ctypes object
    (RawArray, Array, Value) is attached to the same shared memory again, but a
    numpy array, also one made by [np.frombuffer] from a RawArray, is copied into
    the private memory of the worker. *)
From Coq Require Import String.
From Coq Require Import ZArith List Arith Lia Bool Relations.
From Verif Require Import Py Num Arr Sort Conc S_Neighbors M_IO M_Dist M_Hubness M_SNN M_LS M_Centering M_MPEmpiric M_Simhub M_HubnessClass M_Approx.
Import ListNotations.
Local Open Scope py_scope.

(** the start methods of multiprocessing (used by Pool at hubness.py:207,
    local_scaling.py:266, shared_neighbors.py:263, ...) *)
Inductive start_method := Fork | Spawn | ForkServer.
(** how the buffer for the results is given to the workers: as a numpy view
    (hubness.py:206-209, local_scaling.py:265-268, 294-297, 499-511,
    shared_neighbors.py:257-265, 410-413, 440-443, centering.py:261-264, 405-408,
    approximate.py:994-999) or as the ctypes object itself
    (global_scaling.py:370-377) *)
Inductive passed := AsView | AsHandle.
(** whether the writes of a worker reach the buffer of the parent
    (hubness.py:207-209, global_scaling.py:375-377) *)
Definition shares (st : start_method) (p : passed) : bool :=
  match st, p with
  | Fork, _ => true
  | _, AsHandle => true
  | _, AsView => false
  end.

Section Machine.
  Context {C V T : Type} (ceq : C -> C -> bool).
  (** [shared]: the writes reach the parent; [body w t m]: the writes of task
      [t] on worker [w], which sees the buffer contents [m] when it starts
      (hubness.py:67-92 and the other worker functions) *)
  Variable shared : bool.
  Variable body : nat -> T -> (C -> V) -> list (C * V).

  (** the buffer of the parent, the private copies of the workers, the writes
      that the current task of each worker has still to do, and the tasks that
      no worker has taken yet (hubness.py:205-217) *)
  Record pstate := PState { ps_main : C -> V; ps_own : nat -> C -> V;
                            ps_todo : nat -> list (C * V); ps_queue : list T }.
  (** what worker [w] sees (hubness.py:61-65) *)
  Definition sees (s : pstate) (w : nat) : C -> V := if shared then ps_main s else ps_own s w.
  (** a function changed at one place (hubness.py:88, 91) *)
  Definition upd {A} (f : nat -> A) (w : nat) (a : A) : nat -> A := fun x => if x =? w then a else f x.

  (** one step of a pool with [p] workers: an idle worker takes the next task,
      or a worker does one write (hubness.py:207-217) *)
  Inductive pstep (p : nat) : pstate -> pstate -> Prop :=
  | ps_take s w t q : w < p -> ps_todo s w = [] -> ps_queue s = t :: q ->
      pstep p s (PState (ps_main s) (ps_own s) (upd (ps_todo s) w (body w t (sees s w))) q)
  | ps_write s w c v l : w < p -> ps_todo s w = (c, v) :: l ->
      pstep p s (if shared
                 then PState (do_write ceq (ps_main s) (c, v)) (ps_own s) (upd (ps_todo s) w l) (ps_queue s)
                 else PState (ps_main s) (upd (ps_own s) w (do_write ceq (ps_own s w) (c, v)))
                             (upd (ps_todo s) w l) (ps_queue s)).

  (** the pool starts with the buffer contents [m] (hubness.py:205-209), all
      copies equal it *)
  Definition pool_start (m : C -> V) (tasks : list T) : pstate := PState m (fun _ => m) (fun _ => []) tasks.
  (** all tasks are done and returned (hubness.py:210-217) *)
  Definition pool_done (p : nat) (s : pstate) : Prop :=
    ps_queue s = [] /\ forall w, w < p -> ps_todo s w = [].
  (** [s'] is a possible state after all tasks of a pool in state [s] are done
      (hubness.py:210-217) *)
  Definition pool_ends (p : nat) (s s' : pstate) : Prop :=
    clos_refl_trans_1n _ (pstep p) s s' /\ pool_done p s'.
End Machine.
Arguments PState {C V T}. Arguments ps_main {C V T}. Arguments ps_own {C V T}.
Arguments ps_todo {C V T}. Arguments ps_queue {C V T}.

(** a pool with [p] workers, [n] tasks whose writes do not depend on the buffer,
    which is [m] at the beginning and [m'] for the parent at the end (hubness.py:207-220) *)
Definition pool_with {C V} (ceq : C -> C -> bool) (st : start_method) (how : passed) (p : nat)
    (m : C -> V) {T} (tasks : list T) (writes : T -> list (C * V)) (m' : C -> V) : Prop :=
  exists s, pool_ends ceq (shares st how) (fun _ t _ => writes t) p (pool_start m tasks) s /\ m' = ps_main s.

Section Functions.
  Context {V : Type} {N : Num V}.
  Variable st : start_method.
  Variables (vexp vln : V -> V) (vsum : list V -> V) (vpow : V -> V -> V).
  Variable part : list V -> list nat -> list V.
  Variable argpart : list V -> list nat -> list nat.
  Variable argsort : list V -> list nat.

  (** hubness.py:162-228 hubness with [p] = n_jobs processes, any start method.
      [rps i] is the permutation drawn for row [i]. *)
  Inductive hubness_on (p : nat) (sparse : bool) (D : arr2 V) (k : Z) (metric : string)
      (shuffle_equal : bool) (rps : nat -> list nat) : result hub_out -> Prop :=
  | ho_metric e : check_valid_metric_parameter metric = Raise e ->
      hubness_on p sparse D k metric shuffle_equal rps (Raise e)
  | ho_negk : check_valid_metric_parameter metric = Ok tt -> (hub_k k (ncol D) < 0)%Z ->
      hubness_on p sparse D k metric shuffle_equal rps (Raise ValueError)
  | ho_task i e : check_valid_metric_parameter metric = Ok tt -> (0 <= hub_k k (ncol D))%Z -> i < nrow D ->
      hub_row_nn argpart metric (hub_kth_par metric (nrow D) (ncol D) (hub_k k (ncol D)))
                 (hub_shuffle shuffle_equal rps i) (hub_row metric (hub_prepare sparse metric D) i) = Raise e ->
      hubness_on p sparse D k metric shuffle_equal rps (Raise e)
  | ho_ok rows mm : check_valid_metric_parameter metric = Ok tt -> (0 <= hub_k k (ncol D))%Z ->
      mapM (fun i => hub_row_nn argpart metric (hub_kth_par metric (nrow D) (ncol D) (hub_k k (ncol D)))
                       (hub_shuffle shuffle_equal rps i) (hub_row metric (hub_prepare sparse metric D) i))
           (seq 0 (nrow D)) = Ok rows ->
      pool_with cell_eq st AsView p (fun _ => 0) (seq 0 (nrow D)) (fun i => hub_task i (nth i rows [])) mm ->
      hubness_on p sparse D k metric shuffle_equal rps
        (let Dk := read_rows (nrow D) (Z.to_nat (hub_k k (ncol D))) mm in
         Ok (HubOut Dk (bincount (concat Dk) (ncol D)))).

  (** local_scaling.py:221-311 local_scaling with n_jobs = [p] > 1.  The second pool
      gets a pickled copy of the radii that the parent sees. *)
  Inductive local_scaling_on (p : nat) (D : arr2 V) (k : Z) (metric : string) (test : option (list nat)) :
      result (arr2 V) -> Prop :=
  | lo_fail e : ls_radii part D k metric test = Raise e -> local_scaling_on p D k metric test (Raise e)
  | lo_ok rs r data : ls_radii part D k metric test = Ok rs ->
      pool_with Nat.eqb st AsView p (fun _ => n0) (seq 0 (nrow D)) (fun i => [(i, nth i rs nnan)]) r ->
      pool_with celleq st AsView p (fun _ => n0) (seq 0 (nrow D))
        (ls_task vexp metric (fill_diagonal D (ls_exclude metric)) (nrow D) r) data ->
      local_scaling_on p D k metric test
        (Ok (fill_diagonal (Arr2 (nrow D) (nrow D) (fun i j => data (i, j))) (ls_self metric))).

  (** local_scaling.py:477-515 nicdm with n_jobs = [p] > 1 *)
  Inductive nicdm_on (p : nat) (D : arr2 V) (k : Z) (metric : string) (test : option (list nat)) :
      result (arr2 V) -> Prop :=
  | no_fail e : nicdm_radii vsum part D k metric test = Raise e -> nicdm_on p D k metric test (Raise e)
  | no_ok rs r data : nicdm_radii vsum part D k metric test = Ok rs ->
      pool_with Nat.eqb st AsView p (fun _ => n0) (seq 0 (nrow D)) (fun i => [(i, nth i rs nnan)]) r ->
      pool_with celleq st AsView p (fun _ => n0) (seq 0 (nrow D))
        (nicdm_task (local_geomean vexp vln vsum (map r (seq 0 (nrow D)))) (fill_diagonal D ninf) (nrow D) r) data ->
      nicdm_on p D k metric test (Ok (Arr2 (nrow D) (nrow D) (fun i j => data (i, j)))).

  (** shared_neighbors.py:243-295 shared_nearest_neighbors with n_jobs = [p] > 1.  One pool
      does both phases: in the second one a worker reads the neighbourhoods that
      it sees. *)
  Inductive snn_on (p : nat) (D : arr2 V) (k : Z) (metric : string) : result (arr2 V) -> Prop :=
  | so_check e : (check_distance_matrix_shape (Dense [nrow D; ncol D]) ;; check_valid_metric_parameter metric) = Raise e ->
      snn_on p D k metric (Raise e)
  | so_task i e : (check_distance_matrix_shape (Dense [nrow D; ncol D]) ;; check_valid_metric_parameter metric) = Ok tt ->
      i < nrow D -> snn_hood argpart metric k (fill_diagonal D (snn_exclude metric)) i = Raise e ->
      snn_on p D k metric (Raise e)
  | so_ok hoods s1 s2 : (check_distance_matrix_shape (Dense [nrow D; ncol D]) ;; check_valid_metric_parameter metric) = Ok tt ->
      mapM (snn_hood argpart metric k (fill_diagonal D (snn_exclude metric))) (seq 0 (nrow D)) = Ok hoods ->
      pool_ends celleq (shares st AsView) (fun _ i _ => snn_task1 i (nth i hoods [])) p
        (pool_start (fun _ => false) (seq 0 (nrow D))) s1 ->
      pool_ends celleq (shares st AsView)
        (fun w i _ => snn_task2 metric k (nrow D) (sees (shares st AsView) s1 w) i) p
        (pool_start (fun _ => n0) (seq 0 (nrow D))) s2 ->
      snn_on p D k metric (Ok (snn_finish metric (Arr2 (nrow D) (nrow D) (fun i j => ps_main s2 (i, j))))).

  (** shared_neighbors.py:385-482 simhubIN with n_jobs = [p] > 1 *)
  Inductive simhubIN_on (p : nat) (D : arr2 V) (train test : option (list nat)) (s : Z) (ret_dist : bool) :
      result (arr2 V) -> Prop :=
  | sho_raise e : shi_checks D train test = Raise e -> simhubIN_on p D train test s ret_dist (Raise e)
  | sho_ok knn data : shi_checks D train test = Ok tt ->
      pool_with celleq st AsView p (fun _ => false) (seq 0 (nrow D)) (shi_task1 argsort s (shi_dist D train)) knn ->
      (let m := ncol D in
       let K := Arr2 (nrow D) m (fun a b => knn (a, b)) in
       pool_with celleq st AsView p (fun _ => n0) (shi_rows (nrow D) test)
         (shi_task2 vsum K m (fun x => shi_I vln m (shi_N K m x)) (m <? 2000) train) data) ->
      simhubIN_on p D train test s ret_dist
        (Ok (shi_finish ret_dist (shi_norm vln s (ncol D)) test (Arr2 (nrow D) (ncol D) (fun a b => data (a, b))))).

  (** centering.py:239-281 localized_centering with n_jobs = [p] > 1 *)
  Inductive localized_centering_on (p : nat) (X : arr2 V) (Y : option (arr2 V)) (kappa : Z) (gamma : V) :
      result (arr2 V) -> Prop :=
  | lco_dot e : matmul vsum (unit_rows vsum X)
        (transpose (unit_rows vsum (match Y with None => X | Some Y => Y end))) = Raise e ->
      localized_centering_on p X Y kappa gamma (Raise e)
  | lco_task sim S e :
      let W := unit_rows vsum (match Y with None => X | Some Y => Y end) in
      matmul vsum (unit_rows vsum X) (transpose W) = Ok sim -> matmul vsum W (transpose W) = Ok S ->
      mapM (local_affinity vsum argpart W S kappa) (seq 0 (nrow W)) = Raise e ->
      localized_centering_on p X Y kappa gamma (Raise e)
  | lco_ok sim S la buf :
      let W := unit_rows vsum (match Y with None => X | Some Y => Y end) in
      matmul vsum (unit_rows vsum X) (transpose W) = Ok sim -> matmul vsum W (transpose W) = Ok S ->
      mapM (local_affinity vsum argpart W S kappa) (seq 0 (nrow W)) = Ok la ->
      pool_with Nat.eqb st AsView p (fun _ => n0) (seq 0 (nrow W)) (fun i => [(i, nth i la nnan)]) buf ->
      localized_centering_on p X Y kappa gamma (Ok (lcent_finish vpow sim (nrow W) buf gamma)).

  (** centering.py:403-414, 425-436: the local centroids with n_jobs = [p] > 1 *)
  Inductive dsl_centroids_on (p : nat) (D Y : arr2 V) (k : Z) : result (nat -> nat -> V) -> Prop :=
  | dco_fail e : mapM (dsl_nn argpart D k) (seq 0 (nrow D)) = Raise e -> dsl_centroids_on p D Y k (Raise e)
  | dco_ok nn buf : mapM (dsl_nn argpart D k) (seq 0 (nrow D)) = Ok nn ->
      pool_with celleq st AsView p (fun _ => n0) (seq 0 (nrow D))
        (fun i => map (fun f => ((i, f), rows_mean vsum Y (nth i nn []) f)) (seq 0 (ncol Y))) buf ->
      dsl_centroids_on p D Y k (Ok (fun i f => buf (i, f))).

  (** centering.py:388-449 dis_sim_local with n_jobs = [p] > 1, without [Y] *)
  Inductive dis_sim_local_on (p : nat) (X : arr2 V) (k : Z) : result (arr2 V) -> Prop :=
  | dso_bad e : euclidean_distances_sq vsum X X = Raise e -> dis_sim_local_on p X k (Raise e)
  | dso_self D0 c : euclidean_distances_sq vsum X X = Ok D0 ->
      dsl_centroids_on p (fill_diagonal D0 ninf) X k c ->
      dis_sim_local_on p X k
        (let* c := c in
         let D := fill_diagonal D0 ninf in
         let s := dsl_sq vsum X c in
         Ok (fill_diagonal (Arr2 (nrow D) (ncol D) (fun i j => nsub (nsub (at2 D i j) (s i)) (s j))) nninf)).

  Variable rdist : nat -> (nat -> V) -> (nat -> V) -> V.
  (** hubness.py:484-528 Hubness._k_neighbors with n_jobs = [p] <> 1 *)
  Inductive k_neighbors_on (p : nat) (X Y : arr2 V) (metric : string) (k : nat) (kth : list Z)
      (start end_ : nat) (bs : Z) : result (list (list nat)) -> Prop :=
  | kno_zero : bs = 0%Z -> k_neighbors_on p X Y metric k kth start end_ bs (Raise ZeroDivisionError)
  | kno_fail nb i e : n_batches (nrow X) bs = Ok nb -> i < nb ->
      batch_nn rdist argpart X Y metric kth start end_ (batch_rows (Z.to_nat bs) (nrow X) i) = Raise e ->
      k_neighbors_on p X Y metric k kth start end_ bs (Raise e)
  | kno_ok nb nns buf : n_batches (nrow X) bs = Ok nb ->
      mapM (fun i => batch_nn rdist argpart X Y metric kth start end_ (batch_rows (Z.to_nat bs) (nrow X) i)) (seq 0 nb) = Ok nns ->
      pool_with cell_eq st AsView p (fun _ => 0) (seq 0 nb)
        (fun i => batch_task (Z.to_nat bs) (nrow X) k i (nth i nns [])) buf ->
      k_neighbors_on p X Y metric k kth start end_ bs
        (Ok (map (fun i => map (fun c => buf (i, c)) (seq 0 k)) (seq 0 (nrow X)))).

  Variable sdist : string -> nat -> (nat -> V) -> (nat -> V) -> V.
  Variable vstore : f64 -> V.
  (** approximate.py:963-1007 _transform_mp without an index, n_jobs = [p] <> 1 *)
  Inductive transform_mp_on (p : nat) (metric : string) (ns : nat) (Xt X : arr2 V) : result (arr2 V) -> Prop :=
  | tmo_metric : known_metric metric = false -> transform_mp_on p metric ns Xt X (Raise ValueError)
  | tmo_check e : known_metric metric = true -> trans_check X Xt = Raise e ->
      transform_mp_on p metric ns Xt X (Raise e)
  | tmo_ok buf : known_metric metric = true -> trans_check X Xt = Ok tt ->
      (let D_test := cross_dists sdist metric X Xt in
       let D_train := fill_diagonal (self_dists sdist metric Xt) ninf in
       pool_with cell_eq st AsView p (fun _ => n0) (seq 0 (nrow X))
         (fun i => map (fun j => ((i, j), mp_cell vstore D_test D_train ns i j)) (seq 0 (nrow Xt))) buf) ->
      transform_mp_on p metric ns Xt X (Ok (Arr2 (nrow X) (nrow Xt) (fun i j => buf (i, j)))).

  (** global_scaling.py:347-412 _mutual_proximity_empiric_sparse of a similarity matrix with
      [p] processes: the workers get the ctypes Array *)
  Definition mp_empiric_sparse_on (p : nat) (S : smat V) (min_nnz : nat) (r : result (smat V)) : Prop :=
    exists data,
      pool_with pos_eq st AsHandle p (fun _ => n0) (mpes_tasks S)
        (fun ij => [(ij, mpes_sec_dist S min_nnz (fst ij) (snd ij))]) data /\
      r = Ok (mpes_assemble S min_nnz data).
End Functions.
