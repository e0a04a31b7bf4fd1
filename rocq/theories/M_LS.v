(** Model of /repo/hub_toolbox/local_scaling.py (dense input).

    exp, log and sum are parameters: exact functions over [xr], arbitrary
    functions over float64.  Input arrays are float arrays; index arrays hold
    non-negative integers. *)
From Coq Require Import String.
From Coq Require Import ZArith List Arith Lia Bool.
From Verif Require Import Py Num Arr Sort Conc S_Neighbors M_IO M_Hubness M_SNN.
Import ListNotations.
Local Open Scope py_scope.

Section LS.
  Context {V : Type} {N : Num V}.
  (** np.exp, np.log, np.sum, np.partition *)
  Variables (vexp vln : V -> V) (vsum : list V -> V).
  Variable part : list V -> list nat -> list V.

  (** local_scaling.py:227-241: per-metric constants *)
  Definition ls_kth (metric : string) (n : nat) (k : Z) : Z :=
    if is_sim metric then (Z.of_nat n - k)%Z else (k - 1)%Z.
  (** local_scaling.py:227-241 *)
  Definition ls_exclude (metric : string) : V := if is_sim metric then nninf else ninf.
  (** local_scaling.py:227-241 *)
  Definition ls_self_tmp (metric : string) : V := if is_sim metric then ninf else n0.
  (** local_scaling.py:227-241 *)
  Definition ls_self (metric : string) : V := if is_sim metric then n1 else n0.

  (** local_scaling.py:248-251, 490-493: [slice(0, n)] or
      [np.setdiff1d(np.arange(n), test_ind)] *)
  Definition ls_train (n : nat) (test : option (list nat)) : list nat :=
    match test with
    | None => seq 0 n
    | Some t => filter (fun x => negb (existsb (Nat.eqb x) t)) (seq 0 n)
    end.

  (** local_scaling.py:157-160 _ls_calculate_r, and one row of 273 *)
  Definition ls_radius (dist : arr2 V) (train : list nat) (kth : Z) (i : nat) : result V :=
    let* q := np_partition part (map (at2 dist i) train) [kth] in
    Ok (nth (py_norm (length train) kth) q nnan).

  (** local_scaling.py:167-169: [exp(-1 * d**2 / (r_i * r_j))], or one minus that *)
  Definition ls_val (metric : string) (d ri rj : V) : V :=
    let e := vexp (ndiv (nmul (nofZ (-1)) (nmul d d)) (nmul ri rj)) in
    if is_sim metric then e else nsub n1 e.

  (** local_scaling.py:221-273 up to the radii, when no pool is used *)
  Definition ls_radii (D : arr2 V) (k : Z) (metric : string) (test : option (list nat)) :
      result (list V) :=
    check_distance_matrix_shape (Dense [nrow D; ncol D]) ;;
    check_valid_metric_parameter metric ;;
    let n := nrow D in
    mapM (ls_radius (fill_diagonal D (ls_exclude metric)) (ls_train n test) (ls_kth metric n k))
         (seq 0 n).

  (** local_scaling.py:275-291, 310-311: n_jobs = 1 *)
  Definition local_scaling_serial (D : arr2 V) (k : Z) (metric : string)
      (test : option (list nat)) : result (arr2 V) :=
    let* r := ls_radii D k metric test in
    let n := nrow D in
    let dist := fill_diagonal D (ls_exclude metric) in
    let L := for_ n (fun i M => setrow M i i n (fun j =>
               if j =? i then ls_self_tmp metric
               else ls_val metric (at2 dist i j) (nth i r nnan) (nth j r nnan))) (full2 n n n0) in
    Ok (fill_diagonal (zip2 nadd L (transpose L)) (ls_self metric)).

  (** local_scaling.py:162-172 _ls_calculate_sec_dist as writes: first the row
      slice [i, i:], then the column slice [i:, i] *)
  Definition ls_task (metric : string) (dist : arr2 V) (n : nat) (r : nat -> V) (i : nat) :
      list (cell * V) :=
    let tmp j := if j =? i then ls_self_tmp metric else ls_val metric (at2 dist i j) (r i) (r j) in
    map (fun j => ((i, j), tmp j)) (seq i (n - i)) ++ map (fun j => ((j, i), tmp j)) (seq i (n - i)).

  (** local_scaling.py:174-311.  [n_jobs = -1] means [cpu_count()].  With a
      pool, both phases run on zero-initialised shared buffers; the second
      starts after the first is exhausted.  Any other [n_jobs < 1] computes the
      radii and then fails on the unbound name [r_ctype] (line 297). *)
  Inductive local_scaling (D : arr2 V) (k : Z) (metric : string) (test : option (list nat))
      (cpu : nat) (n_jobs : Z) : result (arr2 V) -> Prop :=
  | ls_one : (if (n_jobs =? -1)%Z then Z.of_nat cpu else n_jobs) = 1%Z ->
      local_scaling D k metric test cpu n_jobs (local_scaling_serial D k metric test)
  | ls_none : ((if (n_jobs =? -1)%Z then Z.of_nat cpu else n_jobs) < 1)%Z ->
      local_scaling D k metric test cpu n_jobs
        (let* _ := ls_radii D k metric test in Raise UnboundLocalError)
  | ls_fail e : (1 < (if (n_jobs =? -1)%Z then Z.of_nat cpu else n_jobs))%Z ->
      ls_radii D k metric test = Raise e -> local_scaling D k metric test cpu n_jobs (Raise e)
  | ls_pool rs r data : (1 < (if (n_jobs =? -1)%Z then Z.of_nat cpu else n_jobs))%Z ->
      ls_radii D k metric test = Ok rs ->
      pool_run Nat.eqb (fun _ => n0) (map (fun i => [(i, nth i rs nnan)]) (seq 0 (nrow D))) r ->
      pool_run celleq (fun _ => n0)
        (map (ls_task metric (fill_diagonal D (ls_exclude metric)) (nrow D) r) (seq 0 (nrow D))) data ->
      local_scaling D k metric test cpu n_jobs
        (Ok (fill_diagonal (Arr2 (nrow D) (nrow D) (fun i j => data (i, j))) (ls_self metric))).

  (** local_scaling.py:24-138 local_scaling_sample.  [train_ind=None] fails in
      check_sample_shape_fits, and 'similarity' with a train_ind is rejected, so
      only distances remain. *)
  Definition local_scaling_sample (D : arr2 V) (k : Z) (metric : string) (train : list nat)
      (test : option (list nat)) : result (arr2 V) :=
    check_sample_shape_fits (Dense [nrow D; ncol D]) (Dense [length train]) ;;
    check_valid_metric_parameter metric ;;
    guard (is_sim metric) NotImplementedError ;;
    let n := nrow D in let s := ncol D in
    guard (existsb (fun i => n <=? i) train) IndexError ;;
    let dist := set_cells train ninf D in
    let* r := mapM (ls_radius dist (seq 0 s) (k - 1)%Z) (seq 0 n) in
    guard (match test with
           | None => false | Some t => existsb (fun i => n <=? i) t end) IndexError ;;
    let n_ind := match test with None => seq 0 n | Some t => t end in
    let L := fold_left (fun M i => setrow M i 0 s (fun j =>
        ls_val metric (at2 dist i j) (nth i r nnan) (nth (nth j train 0) r nnan)))
        n_ind (full2 n s n0) in
    match test with
    | None => Ok (fill_diagonal L n0)
    | Some t => let M := set_cells train n0 L in
                Ok (Arr2 (length t) s (fun a b => at2 M (nth a t 0) b))
    end.

  (** np.mean (used at local_scaling.py:419-422, 518) *)
  Definition vmean (l : list V) : V := ndiv (vsum l) (nofnat (length l)).

  (** local_scaling.py:419-422 _nicdm_calculate_r, and one row of 517-518 *)
  Definition nicdm_radius (dist : arr2 V) (train : list nat) (k : Z) (i : nat) : result V :=
    let* q := np_partition part (map (at2 dist i) train) (zarange 0 k) in
    Ok (vmean (prefix q k)).

  (** local_scaling.py:530-531 _local_geomean *)
  Definition local_geomean (r : list V) : V :=
    vexp (ndiv (vsum (map vln r)) (nofnat (length r))).

  (** local_scaling.py:525: [(r_geom * d) / sqrt(r_i * r_j)] *)
  Definition nicdm_val (g d ri rj : V) : V := ndiv (nmul g d) (nsqrt (nmul ri rj)).

  (** local_scaling.py:477-518: checks and radii *)
  Definition nicdm_radii (D : arr2 V) (k : Z) (metric : string) (test : option (list nat)) :
      result (list V) :=
    check_distance_matrix_shape (Dense [nrow D; ncol D]) ;;
    check_valid_metric_parameter metric ;;
    guard (is_sim metric) NotImplementedError ;;
    let n := nrow D in
    mapM (nicdm_radius (fill_diagonal D ninf) (ls_train n test) k) (seq 0 n).

  (** local_scaling.py:516-528: no pool *)
  Definition nicdm_serial (D : arr2 V) (k : Z) (metric : string)
      (test : option (list nat)) : result (arr2 V) :=
    let* r := nicdm_radii D k metric test in
    let n := nrow D in
    let dist := fill_diagonal D ninf in
    let M := for_ n (fun i M => setrow M i (i + 1) n (fun j =>
               nicdm_val (local_geomean r) (at2 dist i j) (nth i r nnan) (nth j r nnan))) (full2 n n n0) in
    Ok (zip2 nadd M (transpose M)).

  (** local_scaling.py:424-429 _nicdm_calculate_sec_dist as writes *)
  Definition nicdm_task (g : V) (dist : arr2 V) (n : nat) (r : nat -> V) (i : nat) : list (cell * V) :=
    let tmp j := nicdm_val g (at2 dist i j) (r i) (r j) in
    map (fun j => ((i, j), tmp j)) (seq (i + 1) (n - (i + 1))) ++
    map (fun j => ((j, i), tmp j)) (seq (i + 1) (n - (i + 1))).

  (** local_scaling.py:431-528 *)
  Inductive nicdm (D : arr2 V) (k : Z) (metric : string) (test : option (list nat))
      (cpu : nat) (n_jobs : Z) : result (arr2 V) -> Prop :=
  | ni_one : ((if (n_jobs =? -1)%Z then Z.of_nat cpu else n_jobs) <= 1)%Z ->
      nicdm D k metric test cpu n_jobs (nicdm_serial D k metric test)
  | ni_fail e : (1 < (if (n_jobs =? -1)%Z then Z.of_nat cpu else n_jobs))%Z ->
      nicdm_radii D k metric test = Raise e -> nicdm D k metric test cpu n_jobs (Raise e)
  | ni_pool rs r data : (1 < (if (n_jobs =? -1)%Z then Z.of_nat cpu else n_jobs))%Z ->
      nicdm_radii D k metric test = Ok rs ->
      pool_run Nat.eqb (fun _ => n0) (map (fun i => [(i, nth i rs nnan)]) (seq 0 (nrow D))) r ->
      pool_run celleq (fun _ => n0)
        (map (nicdm_task (local_geomean (map r (seq 0 (nrow D)))) (fill_diagonal D ninf) (nrow D) r)
             (seq 0 (nrow D))) data ->
      nicdm D k metric test cpu n_jobs (Ok (Arr2 (nrow D) (nrow D) (fun i j => data (i, j)))).

  (** local_scaling.py:313-400 nicdm_sample *)
  Definition nicdm_sample (D : arr2 V) (k : Z) (metric : string) (train : list nat)
      (test : option (list nat)) : result (arr2 V) :=
    check_sample_shape_fits (Dense [nrow D; ncol D]) (Dense [length train]) ;;
    check_valid_metric_parameter metric ;;
    guard (is_sim metric) NotImplementedError ;;
    let n := nrow D in let s := ncol D in
    guard (existsb (fun i => n <=? i) train) IndexError ;;
    let dist := set_cells train ninf D in
    let* r := mapM (nicdm_radius dist (seq 0 s) k) (seq 0 n) in
    guard (match test with
           | None => false | Some t => existsb (fun i => n <=? i) t end) IndexError ;;
    let n_ind := match test with None => seq 0 n | Some t => t end in
    let M := fold_left (fun M i => setrow M i 0 s (fun j =>
        nicdm_val (local_geomean r) (at2 dist i j) (nth i r nnan) (nth (nth j train 0) r nnan)))
        n_ind (full2 n s n0) in
    match test with
    | None => Ok (fill_diagonal M n0)
    | Some t => let M' := set_cells train n0 M in
                Ok (Arr2 (length t) s (fun a b => at2 M' (nth a t 0) b))
    end.
End LS.
