(** Model of hubness_from_vectors and of the class Hubness
    (/repo/hub_toolbox/hubness.py:304-734).

    [rdist m u v] is the distance that sklearn's pairwise_distances computes for
    two rows with [m] features: any function of the two rows.  np.sum and
    np.power on floats are parameters; occurrence counts are unbounded integers.
    The skewness measures are in M_Hubness.v (hub_Sk) and M_Skew.v. *)
From Coq Require Import String Ascii.
From Coq Require Import ZArith List Arith Lia Bool.
From Verif Require Import Py Num Arr Sort Conc M_Hubness M_Dist M_KNN.
Import ListNotations.
Local Open Scope py_scope.

(** str.lower on ASCII letters (used at hubness.py:626-641) *)
Definition lower_ascii (c : ascii) : ascii :=
  let n := nat_of_ascii c in if (65 <=? n) && (n <=? 90) then ascii_of_nat (n + 32) else c.
(** used at hubness.py:626-641 *)
Fixpoint lower (s : string) : string :=
  match s with EmptyString => EmptyString | String c s => String (lower_ascii c) (lower s) end.

(** np.sum of integers, hubness.py:626-654 *)
Definition sumZ (l : list Z) : Z := fold_left Z.add l 0%Z.

(** hubness.py:626-639 Hubness._gini_index, the numerator.  The occurrences are
    integers. *)
Definition gini_num (limiting : string) (Nk : list Z) : Z :=
  let n := length Nk in
  let at_ i := nth i Nk 0%Z in
  let l := lower limiting in
  if (String.eqb l "memory" || String.eqb l "space")%bool then
    for_ n (fun i acc => (acc + sumZ (map (fun x => Z.abs (x - at_ i)) Nk))%Z) 0%Z
  else if (String.eqb l "time" || String.eqb l "cpu")%bool then
    sumZ (concat (map (fun y => map (fun x => Z.abs (x - y)) Nk) Nk))
  else
    for_ n (fun i acc => for_ n (fun j acc => (acc + Z.abs (at_ i - at_ j))%Z) acc) 0%Z.

(** parameters of the constructor as Python objects (hubness.py:444-482) *)
Inductive flag := FBool (b : bool) | FOther.
(** hubness.py:444-482 *)
Inductive seed := SeedNone | SeedInt (z : Z) | SeedState | SeedOther.

Section HC.
  Context {V : Type} {N : Num V}.
  Variable rdist : nat -> (nat -> V) -> (nat -> V) -> V.
  Variables (vsum : list V -> V) (vpow : V -> V -> V).
  Variable argpart : list V -> list nat -> list nat.

  (** hubness.py:640-641: [numerator / denominator] *)
  Definition gini_index (limiting : string) (Nk : list Z) : V :=
    ndiv (nofZ (gini_num limiting Nk)) (nofZ (2 * Z.of_nat (length Nk) * sumZ Nk)).

  (** np.mean of integers (the sum is exact below 2^53) (used at hubness.py:643-654) *)
  Definition zmean (Nk : list Z) : V := ndiv (nofZ (sumZ Nk)) (nofnat (length Nk)).

  (** hubness.py:643-647 _hood_index *)
  Definition hood_index (Nk : list Z) : V :=
    ndiv (nmul (ndiv n1 (nofZ 2)) (vsum (map (fun x => vabs (nsub (nofZ x) (zmean Nk))) Nk)))
         (nofZ (sumZ Nk)).

  (** hubness.py:649-654 _atkinson_index, the branch [eps != 1]; the class only
      uses the default eps = 0.75 *)
  Definition atkinson_index (eps : V) (Nk : list Z) : V :=
    let e := nsub n1 eps in
    let term := vpow (ndiv (vsum (map (fun x => vpow (nofZ x) e) Nk)) (nofnat (length Nk))) (ndiv n1 e) in
    nsub n1 (nmul (ndiv n1 (zmean Nk)) term).

  (** hubness.py:656-663 _antihub_occurrence.  An empty vector raises
      ZeroDivisionError. *)
  Definition antihubs (Nk : list nat) : list nat :=
    filter (fun j => nth j Nk 0 =? 0) (seq 0 (length Nk)).
  (** hubness.py:656-663 *)
  Definition antihub_occurrence (Nk : list nat) : V :=
    ndiv (nofnat (length (antihubs Nk))) (nofnat (length Nk)).

  (** hubness.py:665-669 _hub_occurrence *)
  Definition hubs (k : nat) (Nk : list nat) (hub_size : V) : list nat :=
    filter (fun j => nle (nmul hub_size (nofnat k)) (nofnat (nth j Nk 0))) (seq 0 (length Nk)).
  (** hubness.py:665-669 *)
  Definition hub_occurrence (k : nat) (Nk : list nat) (n_test : nat) (hub_size : V) : V :=
    ndiv (ndiv (nofnat (sum_nat (map (fun j => nth j Nk 0) (hubs k Nk hub_size)))) (nofnat k))
         (nofnat n_test).

  (** hubness.py:444-482 Hubness.__init__: accepted or not.  [k = None] is
      accepted.  sklearn's check_random_state accepts None, RandomState
      instances and integers in [0, 2^32). *)
  Definition seed_bad (s : seed) : bool :=
    match s with
    | SeedNone | SeedState => false
    | SeedInt z => (z <? 0)%Z || (2 ^ 32 <=? z)%Z
    | SeedOther => true
    end.
  (** hubness.py:444-482: [not isinstance(x, bool)] *)
  Definition not_bool (f : flag) : bool := match f with FBool _ => false | FOther => true end.
  (** the number of worker processes that is stored (hubness.py:444-482) *)
  Definition hub_init (k : option Z) (hub_size : V) (metric : string) (rkn rko : flag)
      (verbose n_jobs : Z) (cpu : nat) (rs : seed) : result Z :=
    guard (seed_bad rs) ValueError ;;
    guard (match k with Some k => (k <? 1)%Z | None => false end) ValueError ;;
    guard (nle hub_size n0) ValueError ;;
    guard (negb (String.eqb metric "euclidean" || String.eqb metric "cosine" ||
                 String.eqb metric "precomputed")) ValueError ;;
    guard (not_bool rkn) ValueError ;;
    guard (not_bool rko) ValueError ;;
    guard ((n_jobs <? -1) || (n_jobs =? 0))%Z ValueError ;;
    guard (verbose <? 0)%Z ValueError ;;
    Ok (if (n_jobs =? -1)%Z then Z.of_nat cpu else n_jobs).

  (** [np.argpartition(d, kth)[start:end]] for one row, optionally through a
      permutation (hubness.py:538-550) *)
  Definition row_nn (kth : list Z) (start end_ : nat) (rp : option (list nat)) (d : list V) :
      result (list nat) :=
    match rp with
    | None => let* p := np_argpartition argpart d kth in Ok (slice p start end_)
    | Some rp => let* p := np_argpartition argpart (take nnan d rp) kth in
                 Ok (take 0 rp (slice p start end_))
    end.

  (** ** distances from vectors *)

  (** row [i] of the distances between X and Y (hubness.py:372, 501-505, 52-55) *)
  Definition vec_row (X Y : arr2 V) (i : nat) : list V :=
    map (fun j => rdist (ncol X) (at2 X i) (at2 Y j)) (seq 0 (nrow Y)).

  (** rows [i*b : (i+1)*b] of n (hubness.py:502, 53) *)
  Definition batch_rows (b n i : nat) : list nat := seq (i * b) (Nat.min ((i + 1) * b) n - i * b).

  (** hubness.py:501-507 / 52-57: neighbours of the rows of one batch.  sklearn
      validates both arrays; its cosine_distances has no keyword [squared], so
      metric='cosine' raises TypeError. *)
  Definition batch_nn (X Y : arr2 V) (metric : string) (kth : list Z) (start end_ : nat) (rows : list nat) :
      result (list (list nat)) :=
    if String.eqb metric "cosine" then Raise TypeError else
    check_array (Arr2 (length rows) (ncol X) (fun a f => at2 X (nth a rows 0) f)) ;;
    check_array Y ;;
    mapM (fun i => row_nn kth start end_ None (vec_row X Y i)) rows.

  (** hubness.py:492: [np.ceil(n_test / batch_size)], exact *)
  Definition n_batches (n : nat) (b : Z) : result nat :=
    if (b =? 0)%Z then Raise ZeroDivisionError
    else Ok (Z.to_nat (- ((- Z.of_nat n) / b))).

  (** the assignment [Dk[i*b:(i+1)*b, :] = nn] (hubness.py:507) *)
  Definition set_batch (b n : nat) (i : nat) (nn : list (list nat)) (Dk : arr2 nat) : arr2 nat :=
    for_ (length (batch_rows b n i)) (fun a M =>
      setrow M (nth a (batch_rows b n i) 0) 0 (ncol M) (fun c => nth c (nth a nn []) 0)) Dk.
  (** hubness.py:528: [Dk] as a list of rows *)
  Definition read2 (n k : nat) (A : arr2 nat) : list (list nat) :=
    map (fun i => map (at2 A i) (seq 0 k)) (seq 0 n).
  (** the same as cell writes of a worker (hubness.py:57) *)
  Definition batch_task (b n k : nat) (i : nat) (nn : list (list nat)) : list ((nat * nat) * nat) :=
    concat (map (fun a => map (fun c => ((nth a (batch_rows b n i) 0, c), nth c (nth a nn []) 0)) (seq 0 k))
                (seq 0 (length (batch_rows b n i)))).

  (** hubness.py:484-528 _k_neighbors.  An exception in a worker is re-raised
      by [pool.map]. *)
  Inductive k_neighbors (X Y : arr2 V) (metric : string) (k : nat) (kth : list Z) (start end_ : nat)
      (bs n_jobs : Z) : result (list (list nat)) -> Prop :=
  | kn_zero : bs = 0%Z -> k_neighbors X Y metric k kth start end_ bs n_jobs (Raise ZeroDivisionError)
  | kn_serial nb : n_jobs = 1%Z -> n_batches (nrow X) bs = Ok nb ->
      k_neighbors X Y metric k kth start end_ bs n_jobs
        (let n := nrow X in let b := Z.to_nat bs in
         let* nns := mapM (fun i => batch_nn X Y metric kth start end_ (batch_rows b n i)) (seq 0 nb) in
         Ok (read2 n k (for_ nb (fun i M => set_batch b n i (nth i nns []) M) (full2 n k 0))))
  | kn_fail nb i e : n_jobs <> 1%Z -> n_batches (nrow X) bs = Ok nb -> i < nb ->
      batch_nn X Y metric kth start end_ (batch_rows (Z.to_nat bs) (nrow X) i) = Raise e ->
      k_neighbors X Y metric k kth start end_ bs n_jobs (Raise e)
  | kn_pool nb nns buf : n_jobs <> 1%Z -> n_batches (nrow X) bs = Ok nb ->
      mapM (fun i => batch_nn X Y metric kth start end_ (batch_rows (Z.to_nat bs) (nrow X) i)) (seq 0 nb) = Ok nns ->
      pool_run cell_eq (fun _ => 0)
        (map (fun i => batch_task (Z.to_nat bs) (nrow X) k i (nth i nns [])) (seq 0 nb)) buf ->
      k_neighbors X Y metric k kth start end_ bs n_jobs
        (Ok (map (fun i => map (fun c => buf (i, c)) (seq 0 k)) (seq 0 (nrow X)))).

  (** hubness.py:355-379 hubness_from_vectors: neighbour lists and occurrences *)
  Definition hubness_from_vectors (X : arr2 V) (Y : option (arr2 V)) (k : nat) : result hub_out :=
    let start := match Y with None => 1 | Some _ => 0 end in
    let Z_ := match Y with None => X | Some Y => Y end in
    guard (negb (ncol X =? ncol Z_)) AssertionError ;;
    let* Dk := mapM (fun i =>
        check_array (Arr2 1 (ncol X) (fun _ => at2 X i)) ;; check_array Z_ ;;
        row_nn (zarange 0 (Z.of_nat (start + k))) start (start + k) None (vec_row X Z_ i)) (seq 0 (nrow X)) in
    Ok (HubOut Dk (bincount (concat Dk) (nrow Z_))).

  (** ** precomputed distances *)

  (** hubness.py:530-551 _k_neighbors_precomputed *)
  Definition k_neighbors_precomputed (D : arr2 V) (kth : list Z) (start end_ : nat)
      (rps : option (nat -> list nat)) : result (list (list nat)) :=
    mapM (fun i =>
      row_nn kth start end_ (match rps with None => None | Some f => Some (f i) end)
        (map (fun v => if nisfin v then v else ninf) (rowl D i))) (seq 0 (nrow D)).

  (** hubness.py:594-598, 605-608, one row of _k_neighbors_precomputed_sparse on a csr matrix given
      by its rows of (column, value); [rps i] permutes the stored entries of
      row [i] *)
  Definition sparse_row (k : nat) (rp : option (list nat)) (row : list (nat * V)) : result (list nat) :=
    let* p := row_nn (zarange 0 (Z.of_nat k)) 0 k rp (map snd row) in
    Ok (take 0 (map fst row) p).
  (** [X.indptr], hubness.py:574-584 *)
  Definition indptr (rows : list (list (nat * V))) (i : nat) : nat :=
    sum_nat (map (@length _) (firstn i rows)).
  (** hubness.py:553-610 *)
  Definition k_neighbors_sparse (rows : list (list (nat * V))) (k : nat) (rps : option (nat -> list nat)) :
      result (list (list nat)) :=
    match rows with
    | [] => Raise IndexError
    | r0 :: _ =>
        let n_samples := length r0 in
        match forallb (fun r => length r =? n_samples) rows, rps with
        | true, None =>
            let data := map snd (concat rows) in
            let indices := map fst (concat rows) in
            mapM (fun i =>
              let* p := np_argpartition argpart
                          (map (fun c => vat data (i * n_samples + c)) (seq 0 n_samples)) (zarange 0 (Z.of_nat k)) in
              Ok (map (fun c => nth (c + indptr rows i) indices 0) (slice p 0 k))) (seq 0 (length rows))
        | _, None => mapM (fun i => sparse_row k None (nth i rows [])) (seq 0 (length rows))
        | _, Some f => mapM (fun i => sparse_row k (Some (f i)) (nth i rows [])) (seq 0 (length rows))
        end
    end.

  (** ** fit_transform *)

  (** the attributes set by fit_transform, except the skewness measures (hubness.py:704-733) *)
  Record hub_fit := HubFit {
    f_nn : list (list nat); f_occ : list nat; f_gini : V; f_hood : V; f_atkinson : V;
    f_antihubs : list nat; f_antihub_occ : V; f_hubs : list nat; f_hub_occ : V; f_groupie : V }.

  (** hubness.py:706-733: the measures *)
  Definition measures (k : nat) (hub_size : V) (n_test n_train : nat) (nn : list (list nat)) : result hub_fit :=
    let occ := bincount (concat nn) n_train in
    let occZ := map Z.of_nat occ in
    let limiting := if (10000 <? Z.of_nat (length occ))%Z then "space"%string else "time"%string in
    guard (length occ =? 0) ZeroDivisionError ;;
    Ok (HubFit nn occ (gini_index limiting occZ) (hood_index occZ)
          (atkinson_index (ndiv (nofZ 3) (nofZ 4)) occZ)
          (antihubs occ) (antihub_occurrence occ)
          (hubs k occ hub_size) (hub_occurrence k occ n_test hub_size)
          (ndiv (nofnat (max_list occ)) (nofnat n_test))).

  (** the data argument: dense matrix or sparse distance matrix (hubness.py:671, 697) *)
  Inductive hub_input := InDense (A : arr2 V) | InSparse (ncols : nat) (rows : list (list (nat * V))).

  (** hubness.py:671-734 fit_transform with k >= 1.  [rps] are the permutations
      used if shuffle_equal; [bs] is the batch size. *)
  Inductive fit_transform (metric : string) (k : nat) (hub_size : V) (bs n_jobs : Z)
      (rps : option (nat -> list nat)) (has_self : bool) :
      hub_input -> option (arr2 V) -> result hub_fit -> Prop :=
  | ft_pre_y X Y : metric = "precomputed"%string ->
      fit_transform metric k hub_size bs n_jobs rps has_self X (Some Y) (Raise ValueError)
  | ft_pre_dense D : metric = "precomputed"%string ->
      fit_transform metric k hub_size bs n_jobs rps has_self (InDense D) None
        (let s := if (nrow D =? ncol D) && has_self then 1 else 0 in
         let* nn := k_neighbors_precomputed D (zarange 0 (Z.of_nat (s + k))) s (s + k) rps in
         measures k hub_size (nrow D) (ncol D) nn)
  | ft_pre_sparse m rows : metric = "precomputed"%string ->
      fit_transform metric k hub_size bs n_jobs rps has_self (InSparse m rows) None
        (let* nn := k_neighbors_sparse rows k rps in
         measures k hub_size (length rows) m nn)
  | ft_features X Y : metric <> "precomputed"%string -> ncol X <> ncol Y ->
      fit_transform metric k hub_size bs n_jobs rps has_self (InDense X) (Some Y) (Raise AssertionError)
  | ft_vec X Y r : metric <> "precomputed"%string ->
      (match Y with None => True | Some Y => ncol X = ncol Y end) ->
      (let s := match Y with None => 1 | Some _ => 0 end in
       let Z_ := match Y with None => X | Some Y => Y end in
       k_neighbors X Z_ metric k (zarange 0 (Z.of_nat (s + k))) s (s + k) bs n_jobs r) ->
      fit_transform metric k hub_size bs n_jobs rps has_self (InDense X) Y
        (let* nn := r in
         measures k hub_size (nrow X) (nrow (match Y with None => X | Some Y => Y end)) nn).
End HC.
Arguments HubFit {V}. Arguments InDense {V}. Arguments InSparse {V}.
