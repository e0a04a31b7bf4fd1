(** Model of /repo/hub_toolbox/approximate.py, part 1: finite distances, sparse
    secondary distances, k-means++ and the hubness reduction methods with fixed
    vantage points (sampling_algorithm None, 'random' or 'kmeans++').

    [sdist m f u v] is the distance that sklearn computes for two rows with [f]
    features under the metric [m] ('sqeuclidean': euclidean_distances(...,
    squared=True), 'cosine': cosine_distances): any function of the two rows.
    np.exp, np.sum and norm.sf(x, mu, sd) are parameters.  The class
    converts all data to float32 first (check_array); data here are the converted
    arrays, and comparison theorems are stated for float32.  Verbosity, timing
    and warnings are not modelled. *)
From Coq Require Import String Ascii.
From Coq Require Import ZArith List Arith Lia Bool.
From Verif Require Import Py Num Arr Sort Conc S_Neighbors M_Hubness M_SNN M_LS M_Dist M_HubnessClass.
Import ListNotations.
Local Open Scope py_scope.

Section Approx.
  Context {V : Type} {N : Num V}.

  (** np.max / np.min of a non-empty list without NaN (used at approximate.py:61, 67) *)
  Definition vmax (x : V) (l : list V) : V := fold_left (fun m y => if nlt m y then y else m) l x.
  (** np.min, used at approximate.py:67 *)
  Definition vmin (x : V) (l : list V) : V := fold_left (fun m y => if nlt y m then y else m) l x.

  (** approximate.py:54-71 enforce_finite_distances on the flattened array.
      [min] of an empty array raises ValueError. *)
  Definition enforce_finite (l : list V) : result (list V) :=
    let d_max := match filter nisfin l with [] => n1 | x :: r => vmax x r end in
    let l1 := if existsb (fun v => negb (nisfin v)) l
              then map (fun v => if nisfin v then v else d_max) l else l in
    match l1 with
    | [] => Raise ValueError
    | x :: r => let m := vmin x r in
                Ok (if nlt m n0 then map (fun v => nadd v (nopp m)) l1 else l1)
    end.

  (** approximate.py:529-536: the triples (row, column, value) of the coo matrix;
      [ind] is one list for all rows (fixed vantage points) or a list per row *)
  Inductive cand_ind := FixedInd (j : list nat) | RowInd (j : nat -> list nat).
  (** approximate.py:531-534: the columns of row [i] *)
  Definition cand_row (ind : cand_ind) (i : nat) : list nat :=
    match ind with FixedInd j => j | RowInd j => j i end.
  (** approximate.py:529-536 *)
  Definition coo_triples (D : arr2 V) (ind : cand_ind) : list (nat * nat * V) :=
    concat (map (fun i => map (fun c => (i, nth c (cand_row ind i) 0, at2 D i c)) (seq 0 (ncol D)))
                (seq 0 (nrow D))).
  (** scipy's tocsr adds the values of equal positions, in storage order (approximate.py:537) *)
  Definition coo_tocsr (ts : list (nat * nat * V)) (i j : nat) : option V :=
    match map snd (filter (fun t => (fst (fst t) =? i) && (snd (fst t) =? j)) ts) with
    | [] => None
    | x :: r => Some (fold_left nadd r x)
    end.
  (** approximate.py:522-539 _sparse_distance_matrix with sampling: entries of
      sec_dist_sparse_, [None] where nothing is stored.  Column indices beyond
      the shape raise ValueError. *)
  Definition sparse_distance_matrix (D : arr2 V) (ind : cand_ind) (n_train : nat) :
      result (nat -> nat -> option V) :=
    let ts := coo_triples D ind in
    guard (existsb (fun t => n_train <=? snd (fst t)) ts) ValueError ;;
    Ok (coo_tocsr ts).

  (* ---------------------------------------------------------------- *)
  (** ** k-means++ *)
  Variable vsum : list V -> V.

  (** np.cumsum (stable_cumsum, approximate.py:303) *)
  Fixpoint cumsum (acc : V) (l : list V) : list V :=
    match l with [] => [] | x :: r => nadd acc x :: cumsum (nadd acc x) r end.
  (** np.searchsorted(a, v), side='left' (a is sorted) and side='right' (approximate.py:303) *)
  Fixpoint search_left (a : list V) (v : V) : nat :=
    match a with [] => 0 | x :: r => if nlt x v then S (search_left r v) else 0 end.
  (** side='right', approximate.py:182 *)
  Fixpoint search_right (a : list V) (v : V) : nat :=
    match a with [] => 0 | x :: r => if nle x v then S (search_right r v) else 0 end.
  (** np.minimum without NaN (approximate.py:326) *)
  Definition minimum (a b : list V) : list V :=
    map (fun p => if nlt (snd p) (fst p) then snd p else fst p) (combine a b).

  (** approximate.py:320-334: the best of the candidates; ties keep the first *)
  Definition best_candidate (closest : list V) (dist : nat -> list V) (cands : list nat) :
      option (nat * V * list V) :=
    fold_left (fun best c =>
      let nd := minimum closest (dist c) in
      let np := vsum nd in
      match best with
      | None => Some (c, np, nd)
      | Some (_, bp, _) => if nlt np bp then Some (c, np, nd) else best
      end) cands None.

  (** state of the loop: centres so far, closest distances, potential
      (approximate.py:261-262, 296, 343-344) *)
  Record km := KM { km_ind : list nat; km_closest : list V; km_pot : V }.

  (** approximate.py:299-344: one round; [rands] are the draws of
      random_state.random_sample(n_local_trials).  A candidate index [n] (beyond
      the last object) raises IndexError. *)
  Definition km_round (n : nat) (dist : nat -> list V) (rands : list V) (s : km) : result km :=
    let cs := cumsum n0 (km_closest s) in
    let cands := map (fun r => search_left cs (nmul r (km_pot s))) rands in
    guard (existsb (fun c => n <=? c) cands) IndexError ;;
    match best_candidate (km_closest s) dist cands with
    | None => Raise ValueError
    | Some (c, p, d) => Ok (KM (km_ind s ++ [c]) d p)
    end.

  (** approximate.py:224-350 kmeanspp, the returned indices; [dist i] is the row
      of distances from object [i] to all objects, [first] the draw of
      random_state.randint(n), [rands c] the draws of round [c] (with
      n_local_trials=None there are [2 + int(log(n_clusters))] >= 2).
      n_clusters = 0: int(log(0)) raises OverflowError.  n = 0: randint raises
      ValueError. *)
  Definition kmeanspp (n n_clusters : nat) (dist : nat -> list V) (first : nat)
      (rands : nat -> list V) : result (list nat) :=
    guard (n_clusters =? 0) OverflowError ;;
    guard (n =? 0) ValueError ;;
    let* s := for_ (n_clusters - 1) (fun c s => let* s := s in km_round n dist (rands (c + 1)) s)
                (Ok (KM [first] (dist first) (vsum (dist first)))) in
    Ok (km_ind s).

  (* ---------------------------------------------------------------- *)
  (** ** the constructor *)

  (** str.upper on ASCII letters (used at approximate.py:429-493, 1184, 1198) *)
  Definition upper_ascii (c : ascii) : ascii :=
    let n := nat_of_ascii c in if (97 <=? n) && (n <=? 122) then ascii_of_nat (n - 32) else c.
  (** used at approximate.py:429-493, 1184, 1198 *)
  Fixpoint upper (s : string) : string :=
    match s with EmptyString => EmptyString | String c s => String (upper_ascii c) (upper s) end.

  (** approximate.py:47-50 *)
  Definition valid_hr : list string := ["MP"; "MPG"; "LS"; "NICDM"; "DSL"]%string.
  (** approximate.py:48 *)
  Definition valid_sample : list string := ["random"; "kmeans++"; "lsh"; "hnsw"]%string.
  (** approximate.py:49 *)
  Definition valid_metrics : list string := ["sqeuclidean"; "cosine"; "precomputed"]%string.
  (** [s in VALID_...], approximate.py:429-493 *)
  Definition mem_str (s : string) (l : list string) : bool := existsb (String.eqb s) l.

  (** the attributes set at approximate.py:429-493 *)
  Record suqhr := SuQHR {
    q_hr : option string; q_k : nat; q_ns : nat; q_samp : option string;
    q_metric : string; q_jobs : Z }.

  (** approximate.py:429-493 SuQHR.__init__ for integer n_neighbors and
      n_samples; [lsh], [hnsw]: whether falconn and nmslib are installed. *)
  Definition suqhr_init (hr : option string) (k ns : Z) (samp : option string) (metric pred : string)
      (n_jobs verbose : Z) (cpu : nat) (lsh hnsw : bool) : result suqhr :=
    let* hr := match hr with
      | None => Ok None
      | Some h => if String.eqb (upper h) "NONE" then Ok None
                  else if mem_str (upper h) valid_hr then Ok (Some (upper h)) else Raise ValueError
      end in
    guard (k <? 1)%Z ValueError ;;
    guard (ns <? 1)%Z ValueError ;;
    let* samp := match samp with
      | None => Ok None
      | Some s => if String.eqb (lower s) "none" then Ok None
                  else if negb (mem_str (lower s) valid_sample) then Raise ValueError
                  else if String.eqb (lower s) "lsh" && negb lsh then Raise ImportError
                  else if String.eqb (lower s) "hnsw" && negb hnsw then Raise ImportError
                  else Ok (Some (lower s))
      end in
    guard (negb (mem_str metric valid_metrics)) ValueError ;;
    guard (negb (String.eqb pred "knn")) ValueError ;;
    let* j := (if (n_jobs =? -1)%Z then Ok (Z.of_nat cpu)
               else guard ((n_jobs <? -1) || (n_jobs =? 0))%Z ValueError ;; Ok n_jobs) in
    guard (verbose <? 0)%Z ValueError ;;
    Ok (SuQHR hr (Z.to_nat k) (Z.to_nat ns) samp metric j).

  (* ---------------------------------------------------------------- *)
  (** ** fixed vantage points *)
  Variable sdist : string -> nat -> (nat -> V) -> (nat -> V) -> V.
  Variables (vexp : V -> V) (vsf : V -> V -> V -> V).
  (** assignment of a float64 to an element of a (float32) array *)
  Variable vstore : f64 -> V.
  Variable part : list V -> list nat -> list V.
  Variable argpart : list V -> list nat -> list nat.

  (** How the vantage points were chosen: all objects, or the indices returned
      by _random_sampling / kmeanspp. (approximate.py:552-601) *)
  Inductive sampling := SNone | SRandom (ind : list nat) | SKMeans (ind : list nat).
  (** approximate.py:578, 591, 876: indices of the vantage points *)
  Definition vantage (s : sampling) (n : nat) : list nat :=
    match s with SNone => seq 0 n | SRandom i | SKMeans i => i end.
  (** approximate.py:1060: [sampling_algorithm is not None] *)
  Definition sampled (s : sampling) : bool := match s with SNone => false | _ => true end.
  (** approximate.py:552-582: sklearn's ShuffleSplit(test_size=n_samples) raises
      ValueError unless n_samples < n (also in the retry after a failed
      stratified split) *)
  Definition sampling_check (s : sampling) (n ns : nat) : result unit :=
    match s with SRandom _ => guard (n <=? ns) ValueError | _ => Ok tt end.

  (** [X[ind, :]] (approximate.py:578) *)
  Definition rows_at (X : arr2 V) (ind : list nat) : arr2 V :=
    Arr2 (length ind) (ncol X) (fun a f => at2 X (nth a ind 0) f).
  (** euclidean_distances(X, squared=True) / cosine_distances(X): the diagonal
      is set to zero by sklearn (approximate.py:967-971, 1027-1032, 1122-1126, 1235-1240) *)
  Definition self_dists (metric : string) (X : arr2 V) : arr2 V :=
    fill_diagonal (Arr2 (nrow X) (nrow X) (fun i j => sdist metric (ncol X) (at2 X i) (at2 X j))) n0.
  (** approximate.py:841-846, 964-970, 1076-1081, 1164-1169, 1310-1315 *)
  Definition cross_dists (metric : string) (X Y : arr2 V) : arr2 V :=
    Arr2 (nrow X) (nrow Y) (fun i j => sdist metric (ncol X) (at2 X i) (at2 Y j)).
  (** approximate.py:964-974, 1076-1084, 1164-1172, 1310-1318 *)
  Definition known_metric (m : string) : bool := String.eqb m "sqeuclidean" || String.eqb m "cosine".

  (** sklearn's check_array in fit and transform, and the feature check of its
      distance functions (approximate.py:1409) *)
  Definition fit_check (X : arr2 V) : result unit := check_array X.
  (** approximate.py:1460 *)
  Definition trans_check (X Xt : arr2 V) : result unit :=
    check_array X ;; guard (negb (ncol X =? ncol Xt)) ValueError.

  (** *** no hubness reduction: approximate.py:792-860 *)
  Definition transform_without_hr (metric : string) (Xt X : arr2 V) : result (arr2 V) :=
    trans_check X Xt ;;
    Ok (cross_dists (if known_metric metric then metric else "sqeuclidean"%string) X Xt).

  (** *** empiric mutual proximity *)

  (** approximate.py:984-990 and 208-218: one cell; the count is divided in
      float64 and stored in a float32 array *)
  Definition mp_cell (D_test D_train : arr2 V) (ns i j : nat) : V :=
    let d := at2 D_test i j in
    vstore (nsub n1 (ndiv (nofnat (count_if (fun l => nlt d (at2 D_test i l) && nlt d (at2 D_train j l))
                                            (ncol D_test))) (nofnat ns))).
  (** approximate.py:963-1007, the branch without an index.  [n_jobs <> 1]: a
      pool writes the rows of a zero-initialised shared buffer. *)
  Inductive transform_mp_fixed (metric : string) (ns : nat) (n_jobs : Z) (Xt X : arr2 V) :
      result (arr2 V) -> Prop :=
  | tm_metric : known_metric metric = false -> transform_mp_fixed metric ns n_jobs Xt X (Raise ValueError)
  | tm_check e : known_metric metric = true -> trans_check X Xt = Raise e ->
      transform_mp_fixed metric ns n_jobs Xt X (Raise e)
  | tm_serial : known_metric metric = true -> trans_check X Xt = Ok tt -> n_jobs = 1%Z ->
      transform_mp_fixed metric ns n_jobs Xt X
        (let D_test := cross_dists metric X Xt in
         let D_train := fill_diagonal (self_dists metric Xt) ninf in
         Ok (for_ (nrow X) (fun i M => setrow M i 0 (nrow Xt) (mp_cell D_test D_train ns i))
                  (full2 (nrow X) (nrow Xt) nnan)))
  | tm_pool buf : known_metric metric = true -> trans_check X Xt = Ok tt -> n_jobs <> 1%Z ->
      (let D_test := cross_dists metric X Xt in
       let D_train := fill_diagonal (self_dists metric Xt) ninf in
       pool_run cell_eq (fun _ => n0)
         (map (fun i => map (fun j => ((i, j), mp_cell D_test D_train ns i j)) (seq 0 (nrow Xt)))
              (seq 0 (nrow X))) buf) ->
      transform_mp_fixed metric ns n_jobs Xt X
        (Ok (Arr2 (nrow X) (nrow Xt) (fun i j => buf (i, j)))).

  (** fit + transform with MP: approximate.py:866-898.  Without sampling
      n_samples is overwritten by the number of training objects. *)
  Inductive mp_fixed (metric : string) (s : sampling) (ns : nat) (n_jobs : Z) (Xall X : arr2 V) :
      result (arr2 V) -> Prop :=
  | mf_fail e : (fit_check Xall ;; sampling_check s (nrow Xall) ns) = Raise e ->
      mp_fixed metric s ns n_jobs Xall X (Raise e)
  | mf_run r : (fit_check Xall ;; sampling_check s (nrow Xall) ns) = Ok tt ->
      transform_mp_fixed metric (if sampled s then ns else nrow Xall) n_jobs
        (rows_at Xall (vantage s (nrow Xall))) X r ->
      mp_fixed metric s ns n_jobs Xall X r.

  (** *** mutual proximity with Gaussians *)

  (** np.mean and np.std(ddof=0)
      (used at approximate.py:1037-1038, 1061-1062, 1097-1098, 1199-1200) *)
  Definition vmean_ (l : list V) : V := ndiv (vsum l) (nofnat (length l)).
  (** used at approximate.py:1038, 1062, 1098 *)
  Definition vstd (l : list V) : V :=
    nsqrt (vmean_ (map (fun x => nmul (nsub x (vmean_ l)) (nsub x (vmean_ l))) l)).
  (** np.nanmean, np.nanstd (used at approximate.py:1037-1038, 1097-1098) *)
  Definition nonnan (l : list V) : list V := filter (fun x => negb (nisnan x)) l.

  (** approximate.py:1014-1063: moments of the training distances.  Lines
      1036-1038 compute column moments without the self distance; lines
      1060-1062 replace them, if there was sampling, by row moments of the matrix
      with zero diagonal. *)
  Definition mpg_moments (metric : string) (s : sampling) (Xt : arr2 V) : list V * list V :=
    let D := self_dists metric Xt in
    let Dn := fill_diagonal D nnan in
    let cols := map (fun j => nonnan (coll Dn j)) (seq 0 (nrow Xt)) in
    let D0 := fill_diagonal Dn n0 in
    if sampled s
    then (map (fun i => vmean_ (rowl D0 i)) (seq 0 (nrow Xt)),
          map (fun i => vstd (rowl D0 i)) (seq 0 (nrow Xt)))
    else (map vmean_ cols, map vstd cols).

  (** approximate.py:1096-1101: one row *)
  Definition mpg_row (mu sd : list V) (drow : list V) : list V :=
    let m := vmean_ (nonnan drow) in
    let s := vstd (nonnan drow) in
    map (fun j => let d := nth j drow nnan in
                  nsub n1 (nmul (vsf d m s) (vsf d (nth j mu nnan) (nth j sd nnan))))
        (seq 0 (length drow)).
  (** approximate.py:1014-1103 _fit_mpg, _transform_mpg *)
  Definition mpg_fixed (metric : string) (s : sampling) (ns : nat) (Xall X : arr2 V) : result (arr2 V) :=
    fit_check Xall ;; sampling_check s (nrow Xall) ns ;;
    guard (negb (known_metric metric)) ValueError ;;
    let Xt := rows_at Xall (vantage s (nrow Xall)) in
    let (mu, sd) := mpg_moments metric s Xt in
    trans_check X Xt ;;
    let D := cross_dists metric X Xt in
    Ok (Arr2 (nrow X) (nrow Xt) (fun i j => nth j (mpg_row mu sd (rowl D i)) nnan)).

  (** *** local scaling and NICDM *)

  (** approximate.py:1114-1127: [np.partition(D_train, kth=k)[:, 1:k+1]]; an
      unknown metric leaves D_train unbound *)
  Definition ls_fit (metric : string) (k : nat) (Xt : arr2 V) : result (list (list V)) :=
    guard (negb (known_metric metric)) UnboundLocalError ;;
    mapM (fun i => let* q := np_partition part (rowl (self_dists metric Xt) i) [Z.of_nat k] in
                   Ok (slice q 1 (k + 1))) (seq 0 (nrow Xt)).
  (** approximate.py:1176: [np.partition(D_test, kth=k-1)[:, :k]] *)
  Definition ls_rtest (k : nat) (D : arr2 V) : result (list (list V)) :=
    mapM (fun i => let* q := np_partition part (rowl D i) [(Z.of_nat k - 1)%Z] in Ok (slice q 0 k))
         (seq 0 (nrow D)).
  (** approximate.py:1184-1211: one cell; [rt]: radii of the candidate, [rx]: of
      the query *)
  Definition ls_cell (nicdm : bool) (k : nat) (d : V) (rx rt : list V) : V :=
    if nicdm then ndiv d (nsqrt (nmul (vmean_ rx) (vmean_ rt)))
    else nsub n1 (vexp (ndiv (nmul (nofZ (-1)) (nmul d d)) (nmul (nth (k - 1) rx nnan) (nth (k - 1) rt nnan)))).
  (** approximate.py:1110-1216 _fit_ls, _transform_ls *)
  Definition ls_fixed (nicdm : bool) (metric : string) (k : nat) (s : sampling) (ns : nat)
      (Xall X : arr2 V) : result (arr2 V) :=
    fit_check Xall ;; sampling_check s (nrow Xall) ns ;;
    let Xt := rows_at Xall (vantage s (nrow Xall)) in
    let* rt := ls_fit metric k Xt in
    trans_check X Xt ;;
    let D := cross_dists metric X Xt in
    let* rx := ls_rtest k D in
    Ok (Arr2 (nrow X) (nrow Xt) (fun i j => ls_cell nicdm k (at2 D i j) (nth i rx []) (nth j rt []))).

  (** *** DisSim Local *)

  (** [np.mean(axis=0)] of the rows listed (approximate.py:1248, 1327) *)
  Definition centroid (X : arr2 V) (nn : list nat) (f : nat) : V :=
    vmean_ (map (fun a => at2 X a f) nn).
  (** approximate.py:1271-1276, 1331-1339: squared distance to the centroid, or
      one minus the cosine *)
  Definition dist_to_cent (metric : string) (m : nat) (u c : nat -> V) : V :=
    if String.eqb metric "sqeuclidean" then sqdist vsum m u c
    else nsub n1 (ndiv (ndiv (vdot vsum m u c) (nsqrt (vdot vsum m u u))) (nsqrt (vdot vsum m c c))).
  (** approximate.py:1235-1244: neighbours of the training objects:
      [np.argpartition(D_train, kth=k+1)[:, 1:k+1]] *)
  Definition dsl_train_nn (metric : string) (k : nat) (Xt : arr2 V) : result (list (list nat)) :=
    guard (negb (known_metric metric)) ValueError ;;
    mapM (fun i => let* p := np_argpartition argpart (rowl (self_dists metric Xt) i) [Z.of_nat (k + 1)] in
                   Ok (slice p 1 (k + 1))) (seq 0 (nrow Xt)).
  (** approximate.py:1325: [np.argpartition(D_test, kth=k)[:, :k]] *)
  Definition dsl_test_nn (k : nat) (D : arr2 V) : result (list (list nat)) :=
    mapM (fun i => let* p := np_argpartition argpart (rowl D i) [Z.of_nat k] in Ok (slice p 0 k))
         (seq 0 (nrow D)).
  (** approximate.py:1223-1351 _fit_dsl, _transform_dsl *)
  Definition dsl_fixed (metric : string) (k : nat) (s : sampling) (ns : nat) (Xall X : arr2 V) :
      result (arr2 V) :=
    fit_check Xall ;; sampling_check s (nrow Xall) ns ;;
    let Xt := rows_at Xall (vantage s (nrow Xall)) in
    let* nt := dsl_train_nn metric k Xt in
    trans_check X Xt ;;
    let D := cross_dists metric X Xt in
    let* nx := dsl_test_nn k D in
    let ct j := dist_to_cent metric (ncol Xt) (at2 Xt j) (centroid Xt (nth j nt [])) in
    let cx i := dist_to_cent metric (ncol X) (at2 X i) (centroid Xt (nth i nx [])) in
    Ok (Arr2 (nrow X) (nrow Xt) (fun i j => nsub (nsub (at2 D i j) (cx i)) (ct j))).
End Approx.
Arguments FixedInd : clear implicits. Arguments KM {V}.
