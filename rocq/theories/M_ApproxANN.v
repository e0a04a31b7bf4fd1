(** Model of /repo/hub_toolbox/approximate.py, part 2: sampling_algorithm 'hnsw'
    and 'lsh', where an index supplies the candidates of every object.

    The index is arbitrary: [ans] lists, for every object, the pairs (index,
    distance) that nmslib's knnQueryBatch answers, or the indices that falconn's
    find_k_nearest_neighbors answers.  A row of the model is the pair of a row of
    the index array and of the distance array. *)
From Coq Require Import String Ascii.
From Coq Require Import ZArith List Arith Lia Bool.
From Verif Require Import Py Num Arr Sort Conc S_Neighbors M_Hubness M_SNN M_LS M_Dist M_HubnessClass M_Approx.
Import ListNotations.
Local Open Scope py_scope.

Section ApproxANN.
  Context {V : Type} {N : Num V}.

  (** fill a row of length [k] with [x] after the elements of [l]
      (approximate.py:641-649, 664-671) *)
  Definition pad {A} (k : nat) (l : list A) (x : A) : list A := l ++ repeat x (k - length l).
  (** np.max: NaN if there is one (used at approximate.py:142, 168, 649, 671, 725, 769) *)
  Definition np_max (l : list V) : V :=
    if existsb nisnan l then nnan else match l with [] => nnan | x :: r => vmax x r end.

  (* ---------------------------------------------------------------- *)
  (** ** HNSW *)

  (** approximate.py:641-649: one row of _hnsw_filtering.  The first answer is
      taken to be the object itself.  An empty answer makes the slice
      [ind[i, :-1]], which does not fit an empty array unless k = 1, and then
      [idx[-1]] fails; more than k+1 answers do not fit either. *)
  Definition hnsw_filter_row (k : nat) (a : list (nat * V)) : result (list nat * list V) :=
    match a with
    | [] => Raise (if k =? 1 then IndexError else ValueError)
    | x :: r =>
        guard (k <? length r) ValueError ;;
        Ok (pad k (map fst r) (last (map fst a) 0), pad k (map snd r) (np_max (map snd a)))
    end.
  (** approximate.py:664-671: one row of _hnsw_trafo *)
  Definition hnsw_trafo_row (k : nat) (a : list (nat * V)) : result (list nat * list V) :=
    match a with
    | [] => guard (0 <? k) IndexError ;; Ok ([], [])
    | x :: r =>
        guard (k <? length a) ValueError ;;
        Ok (pad k (map fst a) (last (map fst a) 0), pad k (map snd a) (np_max (map snd a)))
    end.
  (** approximate.py:617-629, 650-655, 672-676: the metric 'cosine' uses the space
      'cosinesimil' and [d * -1 + 1], every other metric the space 'l2' and
      [d ** 2] *)
  Definition hnsw_conv (metric : string) (d : V) : V :=
    if String.eqb metric "cosine" then nadd (nmul d (nofZ (-1))) n1 else nmul d d.
  (** approximate.py:650-655, 672-676 *)
  Definition conv_row (metric : string) (r : list nat * list V) : list nat * list V :=
    (fst r, map (hnsw_conv metric) (snd r)).
  (** approximate.py:603-656 _hnsw_filtering, 658-677 _hnsw_trafo *)
  Definition hnsw_filtering (metric : string) (k : nat) (ans : list (list (nat * V))) :
      result (list (list nat * list V)) :=
    let* rows := mapM (hnsw_filter_row k) ans in Ok (map (conv_row metric) rows).
  (** approximate.py:658-677 *)
  Definition hnsw_trafo (metric : string) (k : nat) (ans : list (list (nat * V))) :
      result (list (list nat * list V)) :=
    let* rows := mapM (hnsw_trafo_row k) ans in Ok (map (conv_row metric) rows).

  (* ---------------------------------------------------------------- *)
  (** ** LSH *)
  Variable sdist : string -> nat -> (nat -> V) -> (nat -> V) -> V.

  (** distances of the query [x] to the rows listed; an empty answer has float
      dtype, so that indexing with it raises IndexError; a list that is empty
      after dropping the object itself raises ValueError in sklearn
      (approximate.py:118-142, 145-168, 715-725, 754-769) *)
  Definition lsh_dists (metric : string) (Xt : arr2 V) (x : nat -> V) (raw knn : list nat) :
      result (list V) :=
    match raw with
    | [] => Raise IndexError
    | _ => guard (length knn =? 0) ValueError ;; Ok (map (fun a => sdist metric (ncol Xt) x (at2 Xt a)) knn)
    end.
  (** the buffers after the padding of lines 140-142, 166-168, 723-725, 767-769.
      [old]: the row of the distance buffer before the call *)
  Definition lsh_pad (k : nat) (knn : list nat) (ds old : list V) : result (list nat * list V) :=
    let row := ds ++ skipn (length ds) old in
    if length knn <? k then
      match knn with
      | [] => Raise IndexError
      | _ => Ok (pad k knn (last knn 0), firstn (length knn) row ++ repeat (np_max row) (k - length knn))
      end
    else Ok (knn, row).
  (** approximate.py:715-725: one row of the serial _lsh_filtering; an unknown
      metric writes no distances *)
  Definition lsh_filter_serial_row (metric : string) (k : nat) (X : arr2 V) (old : list V) (i : nat)
      (raw : list nat) : result (list nat * list V) :=
    let knn := tl raw in
    guard (k <? length knn) ValueError ;;
    let* ds := (if known_metric metric then lsh_dists metric X (at2 X i) raw knn else Ok []) in
    lsh_pad k knn ds old.
  (** approximate.py:118-142 _lsh_filt: an unknown metric is 'sqeuclidean' *)
  Definition lsh_filter_pool_row (metric : string) (k : nat) (X : arr2 V) (i : nat) (raw : list nat) :
      result (list nat * list V) :=
    let knn := tl raw in
    guard (k <? length knn) ValueError ;;
    let* ds := lsh_dists (if known_metric metric then metric else "sqeuclidean"%string) X (at2 X i) raw knn in
    lsh_pad k knn ds (repeat n0 k).
  (** approximate.py:754-769: one row of the serial _lsh_trafo *)
  Definition lsh_trafo_serial_row (metric : string) (k : nat) (Xt : arr2 V) (old : list V) (x : nat -> V)
      (raw : list nat) : result (list nat * list V) :=
    guard (negb (known_metric metric)) ValueError ;;
    let* ds := lsh_dists metric Xt x raw raw in
    guard (k <? length raw) ValueError ;;
    lsh_pad k raw ds old.
  (** approximate.py:145-168 _lsh_trafo; line 168 runs for a full row too, where
      it writes nothing *)
  Definition lsh_trafo_pool_row (metric : string) (k : nat) (Xt : arr2 V) (x : nat -> V) (raw : list nat) :
      result (list nat * list V) :=
    let* ds := lsh_dists (if known_metric metric then metric else "sqeuclidean"%string) Xt x raw raw in
    guard (k <? length raw) ValueError ;;
    lsh_pad k raw ds (repeat n0 k).

  (** The cells of a row, written by one task into the two shared buffers.
      (approximate.py:118-168: the workers) *)
  Definition row_writes (i : nat) (r : list nat * list V) : list ((nat * nat) * (nat * V)) :=
    map (fun j => ((i, j), (nth j (fst r) 0, nth j (snd r) nnan))) (seq 0 (length (fst r))).
  (** A pool over rows: if a row raises, the call raises the exception of some
      failing row; otherwise the buffers hold what the tasks wrote.
      (approximate.py:726-741, 770-785) *)
  Inductive pool_rows (k : nat) (rows : list (result (list nat * list V))) :
      result (list (list nat * list V)) -> Prop :=
  | pr_fail e : In (Raise e) rows -> pool_rows k rows (Raise e)
  | pr_ok rs buf : mapM (fun r => r) rows = Ok rs ->
      pool_run cell_eq (fun _ => (0, n0)) (map (fun p => row_writes (fst p) (snd p)) (combine (seq 0 (length rs)) rs)) buf ->
      pool_rows k rows (Ok (map (fun i => (map (fun j => fst (buf (i, j))) (seq 0 k),
                                           map (fun j => snd (buf (i, j))) (seq 0 k)))
                                (seq 0 (length rs)))).
  (** approximate.py:679-742 _lsh_filtering; [old]: the uninitialised memory
      np.empty returns *)
  Inductive lsh_filtering (metric : string) (k : nat) (n_jobs : Z) (X : arr2 V) (ans : list (list nat)) :
      result (list (list nat * list V)) -> Prop :=
  | lf_serial old : n_jobs = 1%Z -> (forall i, length (old i) = k) ->
      lsh_filtering metric k n_jobs X ans
        (mapM (fun i => lsh_filter_serial_row metric k X (old i) i (nth i ans [])) (seq 0 (nrow X)))
  | lf_pool r : n_jobs <> 1%Z ->
      pool_rows k (map (fun i => lsh_filter_pool_row metric k X i (nth i ans [])) (seq 0 (nrow X))) r ->
      lsh_filtering metric k n_jobs X ans r.
  (** approximate.py:744-786 _lsh_trafo *)
  Inductive lsh_trafo (metric : string) (k : nat) (n_jobs : Z) (Xt X : arr2 V) (ans : list (list nat)) :
      result (list (list nat * list V)) -> Prop :=
  | lt_serial old : n_jobs = 1%Z -> (forall i, length (old i) = k) ->
      lsh_trafo metric k n_jobs Xt X ans
        (mapM (fun i => lsh_trafo_serial_row metric k Xt (old i) (at2 X i) (nth i ans [])) (seq 0 (nrow X)))
  | lt_pool r : n_jobs <> 1%Z ->
      pool_rows k (map (fun i => lsh_trafo_pool_row metric k Xt (at2 X i) (nth i ans [])) (seq 0 (nrow X))) r ->
      lsh_trafo metric k n_jobs Xt X ans r.

  (* ---------------------------------------------------------------- *)
  (** ** hubness reduction on the rows *)
  Variable vstore : f64 -> V.
  (** np.searchsorted(a, v, side='right') *)
  Variable searchr : list V -> V -> nat.
  Variables (vsum : list V -> V) (vexp : V -> V) (vsf : V -> V -> V -> V).

  (** approximate.py:184-187, 202-205, 943-946: objects of the training set that
      are in neither list, as a fraction *)
  Definition mp_ann_cell (n_train : nat) (ind_x ind_t : list nat) : V :=
    vstore (nsub n1 (ndiv (nofnat (length (filter (fun a => negb (existsb (Nat.eqb a) (ind_x ++ ind_t)))
                                                  (seq 0 n_train)))) (nofnat n_train))).
  (** approximate.py:171-187 _mp_hnsw: one cell *)
  Definition mp_hnsw_cell (train test : list (list nat * list V)) (i j : nat) : V :=
    let row := nth i test ([], []) in
    let d := nth j (snd row) nnan in
    let t := nth (nth j (fst row) 0) train ([], []) in
    mp_ann_cell (length train) (firstn (j + 1) (fst row)) (firstn (searchr (snd t) d) (fst t)).
  (** approximate.py:900-922: always a pool, also for n_jobs = 1 *)
  Inductive mp_hnsw (metric : string) (k : nat) (ans_train ans_test : list (list (nat * V))) :
      result (arr2 V) -> Prop :=
  | mh_fail_fit e : hnsw_filtering metric k ans_train = Raise e -> mp_hnsw metric k ans_train ans_test (Raise e)
  | mh_fail_trans rows e : hnsw_filtering metric k ans_train = Ok rows ->
      hnsw_trafo metric k ans_test = Raise e -> mp_hnsw metric k ans_train ans_test (Raise e)
  | mh_run train test buf : hnsw_filtering metric k ans_train = Ok train -> hnsw_trafo metric k ans_test = Ok test ->
      pool_run cell_eq (fun _ => n0)
        (map (fun i => map (fun j => ((i, j), mp_hnsw_cell train test i j)) (seq 0 k)) (seq 0 (length test))) buf ->
      mp_hnsw metric k ans_train ans_test (Ok (Arr2 (length test) k (fun i j => buf (i, j)))).

  (** approximate.py:190-205, 923-962: MP with LSH on the rows of _lsh_trafo;
      [near x d]: the answer of find_near_neighbors(query=x, threshold=d) *)
  Definition mp_lsh_cell (near : (nat -> V) -> V -> list nat) (Xt X : arr2 V) (test : list (list nat * list V))
      (i j : nat) : V :=
    let row := nth i test ([], []) in
    let d := nth j (snd row) nnan in
    mp_ann_cell (nrow Xt) (near (at2 X i) d) (near (at2 Xt (nth j (fst row) 0)) d).
  (** approximate.py:923-962 *)
  Inductive transform_mp_lsh (near : (nat -> V) -> V -> list nat) (k : nat) (n_jobs : Z) (Xt X : arr2 V)
      (test : list (list nat * list V)) : arr2 V -> Prop :=
  | tml_serial : n_jobs = 1%Z ->
      transform_mp_lsh near k n_jobs Xt X test
        (for_ (nrow X) (fun i M => setrow M i 0 k (mp_lsh_cell near Xt X test i)) (full2 (nrow X) k nnan))
  | tml_pool buf : n_jobs <> 1%Z ->
      pool_run cell_eq (fun _ => n0)
        (map (fun i => map (fun j => ((i, j), mp_lsh_cell near Xt X test i j)) (seq 0 k)) (seq 0 (nrow X))) buf ->
      transform_mp_lsh near k n_jobs Xt X test (Arr2 (nrow X) k (fun i j => buf (i, j))).

  (** approximate.py:1060-1062, 1089-1101: MPG on the rows *)
  Definition mpg_ann (k : nat) (train test : list (list nat * list V)) : arr2 V :=
    let mu := map (fun r => vmean_ vsum (snd r)) train in
    let sd := map (fun r => vstd vsum (snd r)) train in
    Arr2 (length test) k (fun i j =>
      let row := nth i test ([], []) in
      let d := nth j (snd row) nnan in
      let t := nth j (fst row) 0 in
      let own := nonnan (snd row) in
      nsub n1 (nmul (vsf d (vmean_ vsum own) (vstd vsum own)) (vsf d (nth t mu nnan) (nth t sd nnan)))).

  (** approximate.py:1131-1140, 1155-1162, 1178-1211: LS and NICDM on the rows; [kth] is
      n_neighbors.  LS takes column kth-1 of arrays with min(k, kth) columns. *)
  Definition ls_ann (nicdm : bool) (kth k : nat) (train test : list (list nat * list V)) : result (arr2 V) :=
    guard (negb nicdm && (k <? kth)) IndexError ;;
    Ok (Arr2 (length test) k (fun i j =>
      let row := nth i test ([], []) in
      let t := nth (nth j (fst row) 0) train ([], []) in
      ls_cell vsum vexp nicdm kth (nth j (snd row) nnan) (firstn kth (snd row)) (firstn kth (snd t)))).

  (** approximate.py:1252-1280, 1292-1306, 1331-1350: DSL on the rows *)
  Definition dsl_ann (metric : string) (kth k : nat) (Xt X : arr2 V) (train test : list (list nat * list V)) :
      result (arr2 V) :=
    guard (negb (known_metric metric)) ValueError ;;
    let ct j := dist_to_cent vsum metric (ncol Xt) (at2 Xt j) (centroid vsum Xt (firstn kth (fst (nth j train ([], []))))) in
    let cx i := dist_to_cent vsum metric (ncol X) (at2 X i) (centroid vsum Xt (firstn kth (fst (nth i test ([], []))))) in
    Ok (Arr2 (length test) k (fun i j =>
      let row := nth i test ([], []) in
      nsub (nsub (nth j (snd row) nnan) (cx i)) (ct (nth j (fst row) 0)))).
End ApproxANN.
