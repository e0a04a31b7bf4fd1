(** The public functions as programs on arrays in memory (Heap.v): which array
    is copied, which is written in place, which is returned.  What a line
    computes without writing to an array of floats is taken from the models of
    the single modules.  Worker pools are not repeated here: the workers only
    write to buffers allocated by the call. *)
From Coq Require Import String.
From Coq Require Import ZArith List Arith Lia Bool.
From Verif Require Import Py Num Arr Sort S_Neighbors M_IO M_Hubness M_GK M_SNN M_KNN M_LS M_MPEmpiric
  M_Approx M_MPDist M_Simhub M_Dist M_Centering M_ID Heap.
Import ListNotations.
Local Open Scope heap_scope.

Section InPlace.
  Context {V : Type} {N : Num V}.

  (** [np.fill_diagonal(A, v)] (e.g. local_scaling.py:262) *)
  Definition p_fill (a : ref) (v : V) : prog V unit := p_upd a (fun A => fill_diagonal A v).
  (** [np.zeros_like(D)] (e.g. local_scaling.py:276) *)
  Definition p_zeros (n m : nat) : prog V ref := p_new (full2 n m n0).
  (** [A += A.T] (e.g. local_scaling.py:291) *)
  Definition p_mirror (a : ref) : prog V unit := p_upd a (fun A => zip2 nadd A (transpose A)).
  (** [return A[test_ind]]: fancy indexing, a new array (e.g. local_scaling.py:138) *)
  Definition p_rows (a : ref) (t : list nat) : prog V ref :=
    A <- p_get a; p_new (Arr2 (length t) (ncol A) (fun x y => at2 A (nth x t 0) y)).

  (** ** Shared nearest neighbours *)
  Variable argpart : list V -> list nat -> list nat.
  Variable argsort : list V -> list nat.

  (** shared_neighbors.py:235-295 shared_nearest_neighbors, n_jobs = 1: [distance = D.copy()]
      (253), fill_diagonal (254), [D_snn] (281-294) *)
  Definition ip_snn (D : ref) (k : Z) (metric : string) : prog V ref :=
    D0 <- p_get D;
    p_lift (check_distance_matrix_shape (Dense [nrow D0; ncol D0])) ;;
    p_lift (check_valid_metric_parameter metric) ;;
    let n := nrow D0 in
    distance <- p_copy D;
    p_fill distance (snn_exclude metric) ;;
    hoods <- p_map (seq 0 n) (fun i => A <- p_get distance; p_lift (snn_hood argpart metric k A i));
    let knn := for_ n (fun i K => mark_row K i (nth i hoods [])) (full2 n n false) in
    D_snn <- p_zeros n n;
    p_for (seq 0 n) (fun i => p_upd D_snn (fun M => setrow M i (i + 1) n (fun j =>
      snn_val metric k (snn_shared n (at2 knn i) (at2 knn j))))) ;;
    p_mirror D_snn ;;
    p_fill D_snn (snn_self metric) ;;
    p_ret D_snn.

  (** shared_neighbors.py:105-168 snn_sample, n_jobs = 1 *)
  Definition ip_snn_sample (D : ref) (k : Z) (metric : string) (train : list nat)
      (test : option (list nat)) : prog V ref :=
    D0 <- p_get D;
    p_lift (check_sample_shape_fits (Dense [nrow D0; ncol D0]) (Dense [length train])) ;;
    p_lift (check_valid_metric_parameter metric) ;;
    let n := nrow D0 in let s := ncol D0 in
    distance <- p_copy D;
    p_cells distance train (snn_exclude metric) ;;
    dist <- p_get distance;
    let knn := for_ n (fun i K =>
        mark_row K i (prefix (snn_order metric (argsort (rowl dist i))) k)) (full2 n s false) in
    D_snn <- p_zeros n s;
    p_lift (guard (match test with
                   | None => false | Some t => existsb (fun i => n <=? i) t end) IndexError) ;;
    p_for (match test with None => seq 0 n | Some t => t end) (fun i =>
      p_upd D_snn (fun M => setrow M i 0 s (fun j =>
        snn_val metric k (snn_shared s (at2 knn i) (at2 knn (nth j train 0)))))) ;;
    match test with
    | None => p_fill D_snn (snn_self metric) ;; p_ret D_snn
    | Some t => p_cells D_snn train (snn_self metric) ;; p_rows D_snn t
    end.

  (** ** Local scaling *)
  Variable part : list V -> list nat -> list V.
  Variables (vexp vln : V -> V) (vsum : list V -> V).

  (** local_scaling.py:221-311 local_scaling, dense, n_jobs = 1: [D = np.copy(D)] (246),
      fill_diagonal (262), [D_ls] (276-291, 310) *)
  Definition ip_ls (D : ref) (k : Z) (metric : string) (test : option (list nat)) : prog V ref :=
    D0 <- p_get D;
    p_lift (check_distance_matrix_shape (Dense [nrow D0; ncol D0])) ;;
    p_lift (check_valid_metric_parameter metric) ;;
    let n := nrow D0 in
    D <- p_copy D;
    p_fill D (ls_exclude metric) ;;
    r <- p_map (seq 0 n) (fun i =>
           A <- p_get D; p_lift (ls_radius part A (ls_train n test) (ls_kth metric n k) i));
    D_ls <- p_zeros n n;
    p_for (seq 0 n) (fun i => A <- p_get D; p_upd D_ls (fun M => setrow M i i n (fun j =>
      if j =? i then ls_self_tmp metric
      else ls_val vexp metric (at2 A i j) (nth i r nnan) (nth j r nnan)))) ;;
    p_mirror D_ls ;;
    p_fill D_ls (ls_self metric) ;;
    p_ret D_ls.

  (** local_scaling.py:66-138 local_scaling_sample with train_ind, dense *)
  Definition ip_ls_sample (D : ref) (k : Z) (metric : string) (train : list nat)
      (test : option (list nat)) : prog V ref :=
    D0 <- p_get D;
    p_lift (check_sample_shape_fits (Dense [nrow D0; ncol D0]) (Dense [length train])) ;;
    p_lift (check_valid_metric_parameter metric) ;;
    p_lift (guard (is_sim metric) NotImplementedError) ;;
    let n := nrow D0 in let s := ncol D0 in
    D <- p_copy D;
    p_cells D train ninf ;;
    r <- p_map (seq 0 n) (fun i => A <- p_get D; p_lift (ls_radius part A (seq 0 s) (k - 1)%Z i));
    D_ls <- p_zeros n s;
    p_lift (guard (match test with
                   | None => false | Some t => existsb (fun i => n <=? i) t end) IndexError) ;;
    p_for (match test with None => seq 0 n | Some t => t end) (fun i =>
      A <- p_get D; p_upd D_ls (fun M => setrow M i 0 s (fun j =>
        ls_val vexp metric (at2 A i j) (nth i r nnan) (nth (nth j train 0) r nnan)))) ;;
    match test with
    | None => p_fill D_ls n0 ;; p_ret D_ls
    | Some t => p_cells D_ls train n0 ;; p_rows D_ls t
    end.

  (** local_scaling.py:477-528 nicdm, n_jobs = 1: [D = np.copy(D)] (487), fill_diagonal (495) *)
  Definition ip_nicdm (D : ref) (k : Z) (metric : string) (test : option (list nat)) : prog V ref :=
    D0 <- p_get D;
    p_lift (check_distance_matrix_shape (Dense [nrow D0; ncol D0])) ;;
    p_lift (check_valid_metric_parameter metric) ;;
    p_lift (guard (is_sim metric) NotImplementedError) ;;
    let n := nrow D0 in
    D <- p_copy D;
    p_fill D ninf ;;
    r <- p_map (seq 0 n) (fun i =>
           A <- p_get D; p_lift (nicdm_radius vsum part A (ls_train n test) k i));
    D_nicdm <- p_zeros n n;
    p_for (seq 0 n) (fun i => A <- p_get D; p_upd D_nicdm (fun M => setrow M i (i + 1) n (fun j =>
      nicdm_val (local_geomean vexp vln vsum r) (at2 A i j) (nth i r nnan) (nth j r nnan)))) ;;
    p_mirror D_nicdm ;;
    p_ret D_nicdm.

  (** local_scaling.py:346-400 nicdm_sample *)
  Definition ip_nicdm_sample (D : ref) (k : Z) (metric : string) (train : list nat)
      (test : option (list nat)) : prog V ref :=
    D0 <- p_get D;
    p_lift (check_sample_shape_fits (Dense [nrow D0; ncol D0]) (Dense [length train])) ;;
    p_lift (check_valid_metric_parameter metric) ;;
    p_lift (guard (is_sim metric) NotImplementedError) ;;
    let n := nrow D0 in let s := ncol D0 in
    D <- p_copy D;
    p_cells D train ninf ;;
    r <- p_map (seq 0 n) (fun i => A <- p_get D; p_lift (nicdm_radius vsum part A (seq 0 s) k i));
    D_nicdm <- p_zeros n s;
    p_lift (guard (match test with
                   | None => false | Some t => existsb (fun i => n <=? i) t end) IndexError) ;;
    p_for (match test with None => seq 0 n | Some t => t end) (fun i =>
      A <- p_get D; p_upd D_nicdm (fun M => setrow M i 0 s (fun j =>
        nicdm_val (local_geomean vexp vln vsum r) (at2 A i j) (nth i r nnan) (nth (nth j train 0) r nnan)))) ;;
    match test with
    | None => p_fill D_nicdm n0 ;; p_ret D_nicdm
    | Some t => p_cells D_nicdm train n0 ;; p_rows D_nicdm t
    end.

  (** ** SimhubIN *)

  (** shared_neighbors.py:399-404: exclude self distances in place *)
  Definition ip_shi_exclude (a : ref) (train : option (list nat)) : prog V unit :=
    match train with
    | None => p_fill a ninf
    | Some t => p_cells a t ninf
    end.

  (** shared_neighbors.py:385-482 simhubIN, n_jobs = 1: [distance = D.copy()] (393);
      [D_shi] (455-482) is divided, negated and shifted in place *)
  Definition ip_simhubIN (D : ref) (train test : option (list nat)) (s : Z) (ret_dist : bool) : prog V ref :=
    D0 <- p_get D;
    p_lift (shi_shape D0 train) ;;
    let n := nrow D0 in let m := ncol D0 in
    distance <- p_copy D;
    ip_shi_exclude distance train ;;
    dist <- p_get distance;
    let knn := shi_knn argsort s dist in
    let I x := shi_I vln m (shi_N knn m x) in
    let vect := m <? 2000 in
    D_shi <- p_zeros n m;
    p_lift (shi_index n test) ;;
    p_for (shi_rows n test) (fun i => p_upd D_shi (fun M => setrow M i 0 m (fun j =>
      shi_cell vsum knn m I i (shi_row vect train j)))) ;;
    p_upd D_shi (map2d (fun v => ndiv v (shi_norm vln s m))) ;;
    (if ret_dist
     then p_upd D_shi (map2d (fun v => nmul v (nopp n1))) ;; p_upd D_shi (map2d (fun v => nadd v n1))
     else p_ret tt) ;;
    match test with
    | None => p_fill D_shi (if ret_dist then n0 else n1) ;; p_ret D_shi
    | Some t => p_rows D_shi t
    end.

  (** ** Mutual proximity *)
  Variables (vcdf vsf : V -> V -> V -> V) (vgam : V -> V -> V).

  (** global_scaling.py:245-299 _mutual_proximity_empiric_full, dense: [D = D.copy()] (271) *)
  Definition ip_mp_empiric (D : ref) (metric : string) (test_ind : testind) : prog V ref :=
    D0 <- p_get D;
    p_lift (check_distance_matrix_shape (Dense [nrow D0; ncol D0])) ;;
    p_lift (check_valid_metric_parameter metric) ;;
    p_lift (guard (test_ind_rejected test_ind) NotImplementedError) ;;
    let n := nrow D0 in
    D <- p_copy D;
    p_fill D (mp_exclude metric) ;;
    D_mp <- p_zeros n n;
    p_for (seq 0 (n - 1)) (fun i => A <- p_get D; p_upd D_mp (fun M => setrow M i (i + 1) n (fun j =>
      mp_value metric n (at2 A i) (at2 A j) (at2 A j i) n))) ;;
    p_mirror D_mp ;;
    p_fill D_mp (mp_self metric) ;;
    p_ret D_mp.

  (** global_scaling.py:132-192 _mutual_proximity_empiric_sample: [D = D.copy()] (158) *)
  Definition ip_mp_empiric_sample (D : ref) (idx : list nat) (metric : string)
      (test : option (list nat)) : prog V ref :=
    D0 <- p_get D;
    p_lift (check_sample_shape_fits (Dense [nrow D0; ncol D0]) (Dense [length idx])) ;;
    p_lift (check_valid_metric_parameter metric) ;;
    let n := nrow D0 in let s := ncol D0 in
    D <- p_copy D;
    p_cells D idx (mp_exclude metric) ;;
    D_mp <- p_new (full2 n s nnan);
    p_lift (guard (match test with
                   | None => false | Some t => existsb (fun i => n <=? i) t end) IndexError) ;;
    p_for (match test with None => seq 0 n | Some t => t end) (fun i =>
      A <- p_get D; p_upd D_mp (fun M => setrow M i 0 s (fun j =>
        mp_value metric s (at2 A i) (at2 A (nth j idx 0)) (at2 A i j) s))) ;;
    p_cells D_mp idx (mp_self metric) ;;
    match test with
    | None => p_ret D_mp
    | Some t => p_rows D_mp t
    end.

  (** global_scaling.py:584-673 mutual_proximity_gaussi, dense, without idx: [D = D.copy()]
      (610); NaN on the diagonal for the moments (618), then the self value (639) *)
  Definition ip_gaussi (D : ref) (metric : string) (sample_size : Z) (test : option (list Z)) : prog V ref :=
    D0 <- p_get D;
    p_lift (check_distance_matrix_shape (Dense [nrow D0; ncol D0])) ;;
    p_lift (check_valid_metric_parameter metric) ;;
    let n := nrow D0 in
    let train := train_rows n test in
    D <- p_copy D;
    p_fill D nnan ;;
    p_lift (guard (negb (sample_size =? 0)%Z) TypeError) ;;
    A <- p_get D;
    let mu j := vmean_ vsum (col_obs A train j) in
    let sd j := no_zero (vstd vsum (col_obs A train j)) in
    p_fill D (mp_self metric) ;;
    D_mp <- p_zeros n n;
    p_for (seq 0 n) (fun i => A <- p_get D; p_upd D_mp (fun M => setrow M i (i + 1) n (fun j =>
      gi_value vcdf vsf metric (at2 A i j) (mu i) (sd i) (mu j) (sd j)))) ;;
    p_mirror D_mp ;;
    p_fill D_mp (mp_self metric) ;;
    p_ret D_mp.

  (** global_scaling.py:453-522 mutual_proximity_gaussi_sample: [D = D.copy()] (479) *)
  Definition ip_gaussi_sample (D : ref) (idx : list nat) (metric : string)
      (test : option (list nat)) : prog V ref :=
    D0 <- p_get D;
    p_lift (check_sample_shape_fits (Dense [nrow D0; ncol D0]) (Dense [length idx])) ;;
    p_lift (check_valid_metric_parameter metric) ;;
    let n := nrow D0 in let s := ncol D0 in
    D <- p_copy D;
    p_cells D idx nnan ;;
    A <- p_get D;
    let mu i := vmean_ vsum (nonnan (rowl A i)) in
    let sd i := no_zero (vstd vsum (nonnan (rowl A i))) in
    p_cells D idx (mp_self metric) ;;
    D_mp <- p_zeros n s;
    p_lift (guard (match test with
                   | None => false | Some t => existsb (fun i => n <=? i) t end) IndexError) ;;
    p_for (match test with None => seq 0 n | Some t => t end) (fun i =>
      A <- p_get D; p_upd D_mp (fun M => setrow M i 0 s (fun j =>
        gi_value vcdf vsf metric (at2 A i j) (mu i) (sd i) (mu (nth j idx 0)) (sd (nth j idx 0))))) ;;
    p_cells D_mp idx (mp_self metric) ;;
    match test with
    | None => p_ret D_mp
    | Some t => p_rows D_mp t
    end.

  (** the cells of a slice that is a view (global_scaling.py:930, 935, 939: [a[a < 0] = nan],
      [b[b <= 0] = nan], [x[x < 0] = 0] with a view [a], [b], [x]) *)
  Definition mask_region (A : arr2 V) (sel : nat -> nat -> bool) (p : V -> bool) (v : V) : arr2 V :=
    Arr2 (nrow A) (ncol A) (fun x y => if sel x y && p (at2 A x y) then v else at2 A x y).

  (** global_scaling.py:927-950 _local_gamcdf with the scalars [A[i]], [B[i]]: item assignment
      to a scalar raises TypeError, which is caught (931-938), so that only [x] is
      written in place; [x] is the slice [D[i, i+1:]] *)
  Definition ip_gamcdf_row (D : ref) (i n : nat) (ai bi : V) : prog V (nat -> V) :=
    let a := if nlt ai n0 then nnan else ai in
    let b := if nle bi n0 then nnan else bi in
    p_upd D (fun A => mask_region A (fun x y => (x =? i) && (i <? y) && (y <? n)) (fun v => nlt v n0) n0) ;;
    x <- p_get D;
    p_ret (fun j => vgam a (ndiv (at2 x i j) b)).

  (** global_scaling.py:927-950 _local_gamcdf with the views [A[i+1:]], [B[i+1:]] of the
      arrays of parameters (rows of one array each) and [x] the slice [D[i+1:, i]] *)
  Definition ip_gamcdf_col (D PA PB : ref) (i n : nat) : prog V (nat -> V) :=
    p_upd PA (fun A => mask_region A (fun x y => (i <? y) && (y <? n)) (fun v => nlt v n0) nnan) ;;
    p_upd PB (fun A => mask_region A (fun x y => (i <? y) && (y <? n)) (fun v => nle v n0) nnan) ;;
    p_upd D (fun A => mask_region A (fun x y => (y =? i) && (i <? x) && (x <? n)) (fun v => nlt v n0) n0) ;;
    x <- p_get D;
    a <- p_get PA;
    b <- p_get PB;
    p_ret (fun j => vgam (at2 a 0 j) (ndiv (at2 x j i) (at2 b 0 j))).

  (** global_scaling.py:784-849 mutual_proximity_gammai, dense: [D = D.copy()] (812);
      _local_gamcdf writes to [D] and to the arrays of parameters *)
  Definition ip_gammai (D : ref) (metric : string) (test : option (list Z)) : prog V ref :=
    D0 <- p_get D;
    p_lift (check_distance_matrix_shape (Dense [nrow D0; ncol D0])) ;;
    p_lift (check_valid_metric_parameter metric) ;;
    let n := nrow D0 in
    let train := train_rows n test in
    D <- p_copy D;
    p_fill D nnan ;;
    A <- p_get D;
    let mu j := vmean_ vsum (col_obs A train j) in
    let va j := no_zero (vvar1 vsum (col_obs A train j)) in
    PA <- p_new (Arr2 1 n (fun _ j => ndiv (nmul (mu j) (mu j)) (va j)));
    PB <- p_new (Arr2 1 n (fun _ j => ndiv (va j) (mu j)));
    D_mp <- p_zeros n n;
    p_for (seq 0 n) (fun i =>
      a <- p_get PA;
      b <- p_get PB;
      p1 <- ip_gamcdf_row D i n (at2 a 0 i) (at2 b 0 i);
      p2 <- ip_gamcdf_col D PA PB i n;
      p_upd D_mp (fun M => setrow M i (i + 1) n (fun j =>
        if is_sim metric then nmul (p1 j) (p2 j)
        else nsub n1 (nmul (nsub n1 (p1 j)) (nsub n1 (p2 j)))))) ;;
    p_mirror D_mp ;;
    p_fill D_mp (mp_self metric) ;;
    p_ret D_mp.

  (** ** Hubness and k-NN: [d = D[i, :]] is a view, the writes to [d] change [D] *)

  (** hubness.py:272-281: the row [i] of [D], changed in place *)
  Definition ip_hub_row (D : ref) (metric : string) (i : nat) : prog V (list V) :=
    A <- p_get D;
    (if nrow A =? ncol A then p_upd D (fun A => set2 A i i (hub_dself metric))
     else if is_dist metric
          then p_upd D (fun A => mask_region A (fun x _ => x =? i) (fun v => neq v n0) (hub_dself metric))
          else p_ret tt) ;;
    p_upd D (fun A => mask_region A (fun x _ => x =? i) (fun v => negb (nisfin v)) (hub_dself metric)) ;;
    A <- p_get D;
    p_ret (rowl A i).

  (** hubness.py:230-302 _hubness_no_multiprocessing, dense: [D = D.copy()] (254) *)
  Definition ip_hubness (D : ref) (k : Z) (metric : string) (shuffle_equal : bool)
      (rps : nat -> list nat) : prog V hub_out :=
    D0 <- p_get D;
    p_lift (check_valid_metric_parameter metric) ;;
    let n := nrow D0 in let m := ncol D0 in
    let k := hub_k k m in
    let kth := hub_kth_ser metric n m k in
    D <- p_copy D;
    p_lift (guard (k <? 0)%Z ValueError) ;;
    (if n =? m then p_fill D (hub_dself metric) else p_ret tt) ;;
    p_upd D (fun A => mask_value A (fun x => negb (nisfin x)) (hub_dself metric)) ;;
    Dk <- p_map (seq 0 n) (fun i =>
            d <- ip_hub_row D metric i;
            p_lift (hub_row_nn argpart metric kth (hub_shuffle shuffle_equal rps i) d));
    p_ret (HubOut Dk (bincount (concat Dk) m)).

  Variable rp : nat -> list nat -> list nat.
  Variable sh : nat -> nat -> list nat -> list nat.

  (** knn_classification.py:88-246 score, dense: [D = D.copy()] (108), the self values of a
      sample (161-162), [row = D[i, :]; row[i] = d_self] (176-178) *)
  Definition ip_score (D : ref) (target : list Z) (ks : list Z) (metric : string)
      (test sample : option (list nat)) : prog V (list (@kst V)) :=
    D0 <- p_get D;
    p_lift (match sample with
            | None => check_distance_matrix_shape (Dense [nrow D0; ncol D0])
            | Some s => check_sample_shape_fits (Dense [nrow D0; ncol D0]) (Dense [length s])
            end) ;;
    p_lift (check_distance_matrix_shape_fits_labels (Dense [nrow D0; ncol D0]) (Dense [length target])) ;;
    p_lift (check_valid_metric_parameter metric) ;;
    D <- p_copy D;
    let n := match test with None => nrow D0 | Some t => length t end in
    let points := match test with None => seq 0 (nrow D0) | Some t => t end in
    p_lift (guard (match test, sample with Some _, Some _ => true | _, _ => false end)
                  NotImplementedError) ;;
    let cl := unique_labels target in
    let classes := map (class_index cl) target in
    (match sample with None => p_ret tt | Some s => p_cells D s (knn_self metric) end) ;;
    p_lift (guard (existsb (fun i => nrow D0 <=? i) points) IndexError) ;;
    let vclasses := match sample with None => classes | Some s => take 0 classes s end in
    let cand := match sample, test with
                | Some s, _ => seq 0 (length s)
                | None, None => seq 0 n
                | None, Some t => filter (fun x => negb (existsb (Nat.eqb x) t)) (seq 0 n)
                end in
    p_lift (guard (existsb (fun x => ncol D0 <=? x) cand) IndexError) ;;
    preds <- p_map points (fun i =>
      (match sample with
       | None => p_upd D (fun A => set2 A i i (knn_self metric))
       | Some _ => p_ret tt
       end) ;;
      A <- p_get D;
      let row := rowl A i in
      p_ret (map (fun nn => knn_vote (length cl) (take 0 vclasses nn))
                 (knn_voters row (sh i) 0 ks (knn_idx argsort metric row (rp i cand)))));
    p_ret (fold_left (fun st ip => zip_upd n (fst ip) (nth (fst ip) classes 0) (snd ip) st)
             (combine points preds) (map (fun _ => kst0) ks)).

  (** ** DisSim local *)

  (** centering.py:414-417, 436-439: [c = np.zeros_like(X)], then one row after the other *)
  Definition ip_centroids (Dm Y : ref) (n m : nat) (k : Z) : prog V ref :=
    c <- p_zeros n m;
    p_for (seq 0 n) (fun i =>
      D <- p_get Dm;
      knn_idx <- p_lift (dsl_nn argpart D k i);
      Yv <- p_get Y;
      p_upd c (fun M => setrow M i 0 m (rows_mean vsum Yv knn_idx))) ;;
    p_ret c.

  (** centering.py:418-420, 440-442: [X -= c; X **= 2; X.sum(axis=1)] *)
  Definition ip_sq_sum (X c : ref) : prog V (nat -> V) :=
    C <- p_get c;
    p_upd X (fun A => zip2 nsub A C) ;;
    p_upd X (map2d (fun v => nmul v v)) ;;
    A <- p_get X;
    p_ret (fun i => vsum (rowl A i)).

  (** centering.py:379-449 dis_sim_local, n_jobs = 1.  [X = X.copy()] (379); [Y = X] (382) makes
      [Y] the same array as the copy of [X]; [D_test = D_train] (399) and [x_y = D_test]
      (444) name the same array; the tests [id(Y) == id(X)] compare references. *)
  Definition ip_dsl (X : ref) (Y : option ref) (k : Z) : prog V ref :=
    X <- p_copy X;
    Y <- match Y with None => p_ret X | Some Y => p_copy Y end;
    Xv <- p_get X;
    Yv <- p_get Y;
    p_lift (guard (negb (ncol Xv =? ncol Yv)) ValueError) ;;
    Dt <- p_lift (euclidean_distances_sq vsum Yv Yv);
    D_train <- p_new Dt;
    D_test <- (if Y =? X then p_fill D_train ninf ;; p_ret D_train
               else Dx <- p_lift (euclidean_distances_sq vsum Xv Yv); p_new Dx);
    c_X <- ip_centroids D_test Y (nrow Xv) (ncol Xv) k;
    x_c <- ip_sq_sum X c_X;
    y_c <- (if Y =? X then p_ret x_c
            else c_Y <- ip_centroids D_train Y (nrow Yv) (ncol Yv) k; ip_sq_sum Y c_Y);
    p_upd D_test (fun A => Arr2 (nrow A) (ncol A) (fun i j => nsub (at2 A i j) (x_c i))) ;;
    p_upd D_test (fun A => Arr2 (nrow A) (ncol A) (fun i j => nsub (at2 A i j) (y_c j))) ;;
    (if Y =? X then p_fill D_test nninf else p_ret tt) ;;
    p_ret D_test.

  (** ** Intrinsic dimension *)
  Variable sort : list V -> list V.

  (** intrinsic_dimension.py:78-154: [X = X.copy().astype(float)] (86), the rows in the order of
      np.lexsort are a new array (90), the transformations are done in place (95-100) *)
  Definition ip_id (X : ref) (order : list nat) (k1 k2 : Z) (estimator metric : string)
      (trafo : option string) (mem_threshold : Z) : prog V V :=
    X0 <- p_get X;
    let n := nrow X0 in
    p_lift (guard (negb (String.eqb estimator "levina" || String.eqb estimator "mackay")) ValueError) ;;
    p_lift (guard ((k1 <? 1)%Z || (k2 <? k1)%Z || (Z.of_nat n <=? k2)%Z) ValueError) ;;
    X <- p_copy X;
    if String.eqb metric "vector" then
      Xv <- p_get X;
      X <- p_new (id_rows order Xv);
      (match trafo with
       | None => p_ret tt
       | Some t =>
           if String.eqb t "var" then
             p_upd X (fun A => id_center vsum A) ;;
             p_upd X (fun A => Arr2 (nrow A) (ncol A) (fun i f =>
               ndiv (at2 A i f) (nadd (col_var vsum A f) tiny)))
           else if String.eqb t "std" then
             p_upd X (fun A => id_center vsum A) ;;
             p_upd X (fun A => Arr2 (nrow A) (ncol A) (fun i f =>
               ndiv (at2 A i f) (nadd (nsqrt (col_var vsum A f)) tiny)))
           else p_lift (Raise ValueError)
       end) ;;
      Xv <- p_get X;
      let L := id_knn vsum vln sort (Z.of_nat n <=? mem_threshold)%Z Xv in
      p_ret (if String.eqb estimator "levina" then id_levina vsum L n (Z.to_nat k1) (Z.to_nat k2)
             else id_mackay vsum L n (Z.to_nat k1) (Z.to_nat k2))
    else if String.eqb metric "distance" || String.eqb metric "similarity"
         then p_lift (Raise NotImplementedError)
         else p_lift (Raise ValueError).
End InPlace.
