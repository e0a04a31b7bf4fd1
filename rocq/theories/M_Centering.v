(** Model of /repo/hub_toolbox/centering.py.

    np.sum and np.power are parameters: exact over [xr], arbitrary functions
    over float64.  Input arrays are float arrays; [test_set_mask] is an index
    array (as the unit tests use it). *)
From Coq Require Import String.
From Coq Require Import ZArith List Arith Lia Bool.
From Verif Require Import Py Num Arr Sort Conc M_IO M_Hubness M_SNN M_LS M_Dist.
Import ListNotations.
Local Open Scope py_scope.

Section Centering.
  Context {V : Type} {N : Num V}.
  Variables (vsum : list V -> V) (vpow : V -> V -> V).
  Variable argpart : list V -> list nat -> list nat.

  (** [np.mean(X[rows], axis=0)] at feature [f] (centering.py:88, 92) *)
  Definition rows_mean (X : arr2 V) (rows : list nat) (f : nat) : V :=
    ndiv (vsum (map (fun i => at2 X i f) rows)) (nofnat (length rows)).

  (** centering.py:81: [np.identity(n) - np.ones((n, n)) / n] *)
  Definition cent_H (n : nat) : arr2 V :=
    Arr2 n n (fun i j => nsub (if i =? j then n1 else n0) (ndiv n1 (nofnat n))).

  (** centering.py:24-94 centering.  The training rows are all rows or
      [np.setdiff1d(np.arange(n), test_set_mask)] ([ls_train]). *)
  Definition centering (X : arr2 V) (metric : string) (mask : option (list nat)) : result (arr2 V) :=
    if (String.eqb metric "similarity" || String.eqb metric "distance" ||
        String.eqb metric "inner" || String.eqb metric "inner_product")%bool then
      guard (match mask with Some _ => true | None => false end) NotImplementedError ;;
      check_distance_matrix_shape (Dense [nrow X; ncol X]) ;;
      let H := cent_H (nrow X) in
      let* A := matmul vsum H X in
      matmul vsum A H
    else if String.eqb metric "vector" then
      let rows := ls_train (nrow X) mask in
      Ok (Arr2 (nrow X) (ncol X) (fun i f => nsub (at2 X i f) (rows_mean X rows f)))
    else Raise ValueError.

  (** [d[i] = v] (used at centering.py:150-158) *)
  Definition upd (d : nat -> V) (i : nat) (v : V) : nat -> V := fun a => if a =? i then v else d a.

  (** centering.py:150-153: [n_train * cos(np.array([X[i], vectors_sum/n_train]))[0, 1]] *)
  Definition wcent_cos (X : arr2 V) (rows : list nat) : nat -> V :=
    let nt := nofnat (length rows) in
    let vs f := vsum (map (fun i => at2 X i f) rows) in
    for_ (nrow X) (fun i d =>
      let P := Arr2 2 (ncol X) (fun a f => if a =? 0 then at2 X i f else ndiv (vs f) nt) in
      upd d i (nmul nt (at2 (cosine_distance vsum P) 0 1))) (fun _ => n0).

  (** centering.py:155-158: [displ_v] subtracts [d[i]], which is still 0 *)
  Definition wcent_euc (X : arr2 V) (rows : list nat) : nat -> V :=
    for_ (nrow X) (fun i d =>
      let displ a f := nsub (at2 X a f) (d i) in
      upd d i (vsum (concat (map (fun a => map (fun f => nsqrt (nmul (displ a f) (displ a f)))
                                               (seq 0 (ncol X))) rows)))) (fun _ => n0).

  (** centering.py:96-165 weighted_centering *)
  Definition weighted_centering (X : arr2 V) (metric : string) (gamma : V)
      (mask : option (list nat)) : result (arr2 V) :=
    let n := nrow X in
    let rows := ls_train n mask in
    let* d := (if String.eqb metric "cosine" then Ok (wcent_cos X rows)
               else if String.eqb metric "euclidean" then Ok (wcent_euc X rows)
               else Raise ValueError) in
    let d_sum := vsum (map (fun i => vpow (d i) gamma) (seq 0 n)) in
    let w i := ndiv (vpow (d i) gamma) d_sum in
    let mean_w f := vsum (map (fun i => nmul (w i) (at2 X i f)) (seq 0 n)) in
    Ok (Arr2 n (ncol X) (fun i f => nsub (at2 X i f) (mean_w f))).

  (* ---------------------------------------------------------------- *)
  (** ** localized centering *)

  (** centering.py:243-245: rows divided by their length, zero length replaced
      by 1e-7 *)
  Definition unit_rows (X : arr2 V) : arr2 V :=
    let len i := nsqrt (vsum (map (fun f => nmul (at2 X i f) (at2 X i f)) (seq 0 (ncol X)))) in
    let div i := if neq (len i) n0 then ndiv n1 (nofZ 10000000) else len i in
    Arr2 (nrow X) (ncol X) (fun i f => ndiv (at2 X i f) (div i)).

  (** [l[-1:-kappa-1:-1]]: from the last element backwards, down to (and
      excluding) the normalised stop position (centering.py:180-186, 272-276) *)
  Definition rev_tail {A} (l : list A) (kappa : Z) : list A :=
    let n := Z.of_nat (length l) in
    let s := (- kappa - 1)%Z in
    let stop := (if s <? 0 then Z.max (s + n) (-1) else Z.min s (n - 1))%Z in
    rev (skipn (Z.to_nat (stop + 1)) l).

  (** centering.py:180-186 _lcent_calculate_loc_af, and the loop body 272-276 *)
  Definition local_affinity (W S : arr2 V) (kappa : Z) (i : nat) : result V :=
    let* p := np_argpartition argpart (rowl S i) [(- kappa)%Z] in
    let nn := rev_tail p kappa in
    Ok (vdot vsum (ncol W) (at2 W i) (rows_mean W nn)).

  (** centering.py:277-281: penalty exponent and column-wise subtraction.
      [gamma != 1 and (local_affinity < 0).sum() == 0] *)
  Definition lcent_finish (sim : arr2 V) (n : nat) (la : nat -> V) (gamma : V) : arr2 V :=
    let la' := if negb (neq gamma n1) && negb (existsb (fun i => nlt (la i) n0) (seq 0 n))
               then fun i => vpow (la i) gamma else la in
    Arr2 (nrow sim) (ncol sim) (fun i j => nsub (at2 sim i j) (la' j)).

  (** centering.py:188-281 localized_centering.  With a pool the affinities are
      written to a zero-initialised shared buffer; an exception in a worker is
      re-raised by [imap].  [n_jobs = -1] means [cpu_count()], any other value
      below 2 runs serially. *)
  Inductive localized_centering (X : arr2 V) (Y : option (arr2 V)) (kappa : Z) (gamma : V)
      (cpu : nat) (n_jobs : Z) : result (arr2 V) -> Prop :=
  | lc_fail_dot e :
      matmul vsum (unit_rows X)
        (transpose (unit_rows (match Y with None => X | Some Y => Y end))) = Raise e ->
      localized_centering X Y kappa gamma cpu n_jobs (Raise e)
  | lc_fail sim S e :
      let W := unit_rows (match Y with None => X | Some Y => Y end) in
      matmul vsum (unit_rows X) (transpose W) = Ok sim -> matmul vsum W (transpose W) = Ok S ->
      mapM (local_affinity W S kappa) (seq 0 (nrow W)) = Raise e ->
      localized_centering X Y kappa gamma cpu n_jobs (Raise e)
  | lc_serial sim S la :
      let W := unit_rows (match Y with None => X | Some Y => Y end) in
      ((if (n_jobs =? -1)%Z then Z.of_nat cpu else n_jobs) <= 1)%Z ->
      matmul vsum (unit_rows X) (transpose W) = Ok sim -> matmul vsum W (transpose W) = Ok S ->
      mapM (local_affinity W S kappa) (seq 0 (nrow W)) = Ok la ->
      localized_centering X Y kappa gamma cpu n_jobs
        (Ok (lcent_finish sim (nrow W) (fun i => nth i la nnan) gamma))
  | lc_pool sim S la buf :
      let W := unit_rows (match Y with None => X | Some Y => Y end) in
      (1 < (if (n_jobs =? -1)%Z then Z.of_nat cpu else n_jobs))%Z ->
      matmul vsum (unit_rows X) (transpose W) = Ok sim -> matmul vsum W (transpose W) = Ok S ->
      mapM (local_affinity W S kappa) (seq 0 (nrow W)) = Ok la ->
      pool_run Nat.eqb (fun _ => n0) (map (fun i => [(i, nth i la nnan)]) (seq 0 (nrow W))) buf ->
      localized_centering X Y kappa gamma cpu n_jobs (Ok (lcent_finish sim (nrow W) buf gamma)).

  (* ---------------------------------------------------------------- *)
  (** ** DisSim *)

  (** centering.py:284-325 dis_sim_global.  [id(X) == id(Y)] only avoids a
      repeated calculation. *)
  Definition dis_sim_global (X : arr2 V) (Y : option (arr2 V)) : result (arr2 V) :=
    let Y := match Y with None => X | Some Y => Y end in
    guard (negb (ncol X =? ncol Y)) ValueError ;;
    let c := Arr2 1 (ncol Y) (fun _ f => rows_mean Y (seq 0 (nrow Y)) f) in
    let* x_c := euclidean_distances_sq vsum Y c in
    let* q_c := euclidean_distances_sq vsum X c in
    let* D := euclidean_distances_sq vsum X Y in
    Ok (Arr2 (nrow D) (ncol D)
          (fun i j => nsub (nsub (at2 D i j) (at2 x_c j 0)) (at2 q_c i 0))).

  (** centering.py:340-343 _dsl_local_centroids, and the loop bodies 415-417,
      437-439: index list of the neighbours of row [i] *)
  Definition dsl_nn (D : arr2 V) (k : Z) (i : nat) : result (list nat) :=
    let* p := np_argpartition argpart (rowl D i) [k] in Ok (prefix p k).

  (** the local centroids of all rows: serial loop into zeros, or pool
      (centering.py:403-417, 425-439) *)
  Inductive dsl_centroids (D Y : arr2 V) (k : Z) (n_jobs : Z) : result (nat -> nat -> V) -> Prop :=
  | dc_fail e : mapM (dsl_nn D k) (seq 0 (nrow D)) = Raise e ->
      dsl_centroids D Y k n_jobs (Raise e)
  | dc_serial nn : (n_jobs <= 1)%Z -> mapM (dsl_nn D k) (seq 0 (nrow D)) = Ok nn ->
      dsl_centroids D Y k n_jobs
        (Ok (at2 (for_ (nrow D) (fun i M => setrow M i 0 (ncol Y) (rows_mean Y (nth i nn [])))
                       (full2 (nrow D) (ncol Y) n0))))
  | dc_pool nn buf : (1 < n_jobs)%Z -> mapM (dsl_nn D k) (seq 0 (nrow D)) = Ok nn ->
      pool_run celleq (fun _ => n0)
        (map (fun i => map (fun f => ((i, f), rows_mean Y (nth i nn []) f)) (seq 0 (ncol Y)))
             (seq 0 (nrow D))) buf ->
      dsl_centroids D Y k n_jobs (Ok (fun i f => buf (i, f))).

  (** centering.py:418-420, 440-442: [X -= c; X **= 2; X.sum(axis=1)] *)
  Definition dsl_sq (X : arr2 V) (c : nat -> nat -> V) (i : nat) : V :=
    vsum (map (fun f => nmul (nsub (at2 X i f) (c i f)) (nsub (at2 X i f) (c i f))) (seq 0 (ncol X))).

  (** centering.py:345-449 dis_sim_local.  Without [Y]: self distances are set
      to +inf before the neighbour search and to -inf in the result.  With [Y]:
      the training distances keep their zero diagonal. *)
  Inductive dis_sim_local (X : arr2 V) (k : Z) (n_jobs : Z) : option (arr2 V) -> result (arr2 V) -> Prop :=
  | dsl_dim Y : ncol X <> ncol Y -> dis_sim_local X k n_jobs (Some Y) (Raise ValueError)
  | dsl_bad Y e : (match Y with None => True | Some Y => ncol X = ncol Y end) ->
      (let Y := match Y with None => X | Some Y => Y end in
       let* _ := euclidean_distances_sq vsum Y Y in euclidean_distances_sq vsum X Y)%py = Raise e ->
      dis_sim_local X k n_jobs Y (Raise e)
  | dsl_self D0 c :
      euclidean_distances_sq vsum X X = Ok D0 ->
      dsl_centroids (fill_diagonal D0 ninf) X k n_jobs c ->
      dis_sim_local X k n_jobs None
        (let* c := c in
         let D := fill_diagonal D0 ninf in
         let s := dsl_sq X c in
         Ok (fill_diagonal (Arr2 (nrow D) (ncol D)
               (fun i j => nsub (nsub (at2 D i j) (s i)) (s j))) nninf))
  | dsl_two Y D_train D_test cx cy : ncol X = ncol Y ->
      euclidean_distances_sq vsum Y Y = Ok D_train -> euclidean_distances_sq vsum X Y = Ok D_test ->
      dsl_centroids D_test Y k n_jobs cx -> dsl_centroids D_train Y k n_jobs cy ->
      dis_sim_local X k n_jobs (Some Y)
        (let* cx := cx in let* cy := cy in
         let sx := dsl_sq X cx in let sy := dsl_sq Y cy in
         Ok (Arr2 (nrow D_test) (ncol D_test)
               (fun i j => nsub (nsub (at2 D_test i j) (sx i)) (sy j)))).
End Centering.
