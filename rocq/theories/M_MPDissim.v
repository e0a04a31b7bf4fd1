(** Model of /repo/hub_toolbox/distances.py: mp_dissim 97-266 and
    sample_distance 269-356. *)
From Coq Require Import String.
From Coq Require Import ZArith List Arith Lia Bool.
From Verif Require Import Py Num Arr Sort Conc M_IO M_SNN.
Import ListNotations.
Local Open Scope py_scope.

Section MPDissim.
  Context {V : Type} {N : Num V}.
  (** [x ** p] and np.partition *)
  Variable vpow : V -> V -> V.
  Variable part : list V -> list nat -> list V.

  (** distances.py:235-237: [np.arange(0, n_y)[0:n_y:step]], and the last position.
      [step] is [int(n_y / n_bins)]; the division of integers below 2^53 followed
      by int() is the integer quotient. *)
  Definition mpd_step (n_y n_bins : nat) : nat := n_y / n_bins.
  (** distances.py:235-237 *)
  Definition mpd_kth (n_y step : nat) : list nat :=
    let k := map (fun t => t * step) (seq 0 ((n_y + step - 1) / step)) in
    if last k 0 =? n_y - 1 then k else k ++ [n_y - 1].

  (** distances.py:121-126: [np.partition(Y[:, i], kth=kth)[kth]] *)
  Definition mass_edges (kth : list nat) (col : list V) : result (list V) :=
    let* q := np_partition part col (map Z.of_nat kth) in Ok (take nnan q kth).

  (** distances.py:128-129: the bin edges of [np.histogram(col, bins=n)]:
      n equal parts of [min, max]; [-0.5, +0.5] around a constant; a value that is
      not finite raises ValueError.  Simplification: newer versions of numpy also
      refuse ranges too small for n floating point bins. *)
  Definition col_min (x : V) (l : list V) : V := fold_left (fun m y => if nlt y m then y else m) l x.
  (** [col.max()], distances.py:128-129 *)
  Definition col_max (x : V) (l : list V) : V := fold_left (fun m y => if nlt m y then y else m) l x.
  (** distances.py:128-129 *)
  Definition mpd_half : V := ndiv n1 (nofZ 2).
  (** np.linspace in np.histogram, distances.py:128-129 *)
  Definition lin_edges (n : nat) (lo hi : V) : list V :=
    map (fun k => nadd (nmul (nofnat k) (ndiv (nsub hi lo) (nofnat n))) lo) (seq 0 n) ++ [hi].
  (** distances.py:128-129 _mp_calc_histograms_n_bins *)
  Definition range_edges (n : nat) (col : list V) : result (list V) :=
    match col with
    | [] => Raise ValueError
    | x :: l =>
        guard (existsb (fun v => negb (nisfin v)) col) ValueError ;;
        let lo := col_min x l in let hi := col_max x l in
        Ok (if neq lo hi then lin_edges n (nsub lo mpd_half) (nadd hi mpd_half) else lin_edges n lo hi)
    end.

  (** np.histogram: entry b counts the values in [e_b, e_(b+1)), the last entry
      those in [e_(n-1), e_n] (distances.py:126, 129) *)
  Definition hist_at (edges col : list V) (b : nat) : nat :=
    length (filter (fun v => nle (nth b edges nnan) v &&
                             (if b + 2 =? length edges then nle v (nth (b + 1) edges nnan)
                              else nlt v (nth (b + 1) edges nnan))) col).
  (** distances.py:126, 129 *)
  Definition hist (edges col : list V) : list nat :=
    map (hist_at edges col) (seq 0 (length edges - 1)).

  (** distances.py:131-136 _mp_create_r_bins: [np.cumsum(hist[b:])[c - b]] *)
  Definition cum_at (h : list nat) (b c : nat) : nat := sum_nat (firstn (c - b + 1) (skipn b h)).
  (** the assignments of line 134 are possible: equal lengths, or one value *)
  Definition hist_fits (n_bins : nat) (h : list nat) : bool :=
    forallb (fun b => (length h - b =? n_bins - b) || (length h - b =? 1)) (seq 0 n_bins).
  (** the writes of one task: line 134 for every b, then line 135 (the buffer
      initially holds zeros; int32 overflow needs 2^31 objects) *)
  Definition r_task (n_bins : nat) (h : list nat) (i : nat) : list ((nat * (nat * nat)) * nat) :=
    flat_map (fun b => map (fun c => ((i, (b, c)), cum_at h b c)) (seq b (n_bins - b))) (seq 0 n_bins) ++
    flat_map (fun b => map (fun c => ((i, (b, c)),
        (if b <=? c then cum_at h b c else 0) + (if c <? b then cum_at h c b else 0))) (seq 0 n_bins))
      (seq 0 n_bins).

  (** distances.py:138-149 _mp_estimate_r: [np.digitize(v, edges) - 1] clipped to
      0..n_bins-1.  digitize counts the edges up to v (NaN is beyond all). *)
  Definition mpd_bin (n_bins : nat) (edges : list V) (v : V) : nat :=
    Nat.min (length (filter (fun e => negb (nlt v e)) edges) - 1) (n_bins - 1).
  (** cells of the two buffers: [(true, (i, x))] of X_bins, [(false, (i, y))] of Y_bins
      (distances.py:138-149) *)
  Definition bin_task (n_bins : nat) (X Y : arr2 V) (edges : list V) (i : nat) :
      list ((bool * (nat * nat)) * nat) :=
    map (fun x => ((true, (i, x)), mpd_bin n_bins edges (at2 X x i))) (seq 0 (nrow X)) ++
    map (fun y => ((false, (i, y)), mpd_bin n_bins edges (at2 Y y i))) (seq 0 (nrow Y)).

  (** distances.py:151-160 _mp_calc_mp_dissim: one cell; [R], [xb], [yb] are the
      buffers *)
  Definition mpd_cell (R : nat -> nat -> nat -> nat) (xb yb : nat -> nat -> nat) (d total : nat)
      (p : V) (x y : nat) : V :=
    let s := fold_left (fun acc i => nadd acc (vpow (ndiv (nofnat (R i (xb i x) (yb i y))) (nofnat total)) p))
               (seq 0 d) n0 in
    vpow (ndiv s (nofnat d)) (ndiv n1 p).
  (** distances.py:151-160: the writes of one task *)
  Definition mpd_task (R : nat -> nat -> nat -> nat) (xb yb : nat -> nat -> nat) (d total n_y : nat)
      (p : V) (x : nat) : list ((nat * nat) * V) :=
    map (fun y => ((x, y), mpd_cell R xb yb d total p x y)) (seq 0 n_y).

  (** distances.py:206-251: everything before the second pool; the bin edges of
      the features.  Pool.map returns the results in order and re-raises
      exceptions.  Simplification: with n_bins = 0 numpy may already refuse the
      empty buffer (ValueError) before the division by zero; X and Y have at
      least one row and one column. *)
  Definition mpd_prepare (X Y : arr2 V) (n_bins : Z) (bin_size : string) (n_jobs : Z) (cpus : nat) :
      result (list (list V)) :=
    guard (negb (ncol X =? ncol Y)) AssertionError ;;
    guard (n_bins <? 0)%Z ValueError ;;
    guard (n_bins =? 0)%Z ZeroDivisionError ;;
    let nb := Z.to_nat n_bins in
    let step := mpd_step (nrow Y) nb in
    guard (step =? 0) ValueError ;;
    guard ((if n_jobs =? -1 then Z.of_nat cpus else n_jobs) <? 1)%Z ValueError ;;
    if String.prefix bin_size "mass"%string then mapM (fun i => mass_edges (mpd_kth (nrow Y) step) (coll Y i)) (seq 0 (ncol Y))
    else if String.prefix bin_size "range"%string then mapM (fun i => range_edges nb (coll Y i)) (seq 0 (ncol Y))
    else Raise ValueError.

  (** equality of positions of the buffer [R], distances.py:131-136 *)
  Definition cell3_eq (a b : nat * (nat * nat)) : bool := (fst a =? fst b) && celleq (snd a) (snd b).
  (** equality of positions of the buffers of distances.py:138-149 *)
  Definition binc_eq (a b : bool * (nat * nat)) : bool := Bool.eqb (fst a) (fst b) && celleq (snd a) (snd b).

  (** distances.py:218-222 [p == 0] is replaced by 2 *)
  Definition mpd_p (p : V) : V := if neq p n0 then nofZ 2 else p.

  (** distances.py:162-266: all outcomes.  The three maps of the second pool run
      one after the other. *)
  Inductive mp_dissim (X : arr2 V) (Y0 : option (arr2 V)) (p : V) (n_bins : Z) (bin_size : string)
      (n_jobs : Z) (cpus : nat) : result (arr2 V) -> Prop :=
  | mpd_fail e :
      let Y := match Y0 with None => X | Some Y => Y end in
      mpd_prepare X Y n_bins bin_size n_jobs cpus = Raise e ->
      mp_dissim X Y0 p n_bins bin_size n_jobs cpus (Raise e)
  | mpd_misfit E :
      let Y := match Y0 with None => X | Some Y => Y end in
      mpd_prepare X Y n_bins bin_size n_jobs cpus = Ok E ->
      existsb (fun i => negb (hist_fits (Z.to_nat n_bins) (hist (nth i E []) (coll Y i)))) (seq 0 (ncol X)) = true ->
      mp_dissim X Y0 p n_bins bin_size n_jobs cpus (Raise ValueError)
  | mpd_run E Rb bb out :
      let Y := match Y0 with None => X | Some Y => Y end in
      let nb := Z.to_nat n_bins in
      let d := ncol X in
      mpd_prepare X Y n_bins bin_size n_jobs cpus = Ok E ->
      existsb (fun i => negb (hist_fits nb (hist (nth i E []) (coll Y i)))) (seq 0 d) = false ->
      pool_run cell3_eq (fun _ => 0) (map (fun i => r_task nb (hist (nth i E []) (coll Y i)) i) (seq 0 d)) Rb ->
      pool_run binc_eq (fun _ => 0) (map (fun i => bin_task nb X Y (nth i E []) i) (seq 0 d)) bb ->
      pool_run celleq (fun _ => n0)
        (map (mpd_task (fun i b c => Rb (i, (b, c))) (fun i x => bb (true, (i, x))) (fun i y => bb (false, (i, y)))
                d (nrow X + nrow Y) (nrow Y) (mpd_p p)) (seq 0 (nrow X))) out ->
      mp_dissim X Y0 p n_bins bin_size n_jobs cpus
        (Ok (Arr2 (nrow X) (nrow Y) (fun x y => out (x, y)))).
End MPDissim.

(** ** sample_distance *)
Section Sample.
  Context {V : Type} {N : Num V}.
  (** scipy's cdist metric on two rows with the given number of features *)
  Variable cdist : nat -> (nat -> V) -> (nat -> V) -> V.

  (** [sample_size]: a Python int, or anything else, for which [q n] is the value
      of [int(sample_size * n)] (distances.py:324-326) *)
  Inductive sample_arg := SInt (z : Z) | SOther (q : nat -> Z).

  (** distances.py:324-326 *)
  Definition sample_number (s : sample_arg) (n : nat) : Z :=
    match s with SInt z => z | SOther q => q n end.

  (** sklearn's StratifiedShuffleSplit(n_splits=1, test_size=k): any list of k
      distinct objects, 1 <= k <= n-1; other sizes raise ValueError.  sklearn also
      raises ValueError for labels it cannot stratify; that is allowed here for
      any labels. (distances.py:327-333) *)
  Inductive split_result (n : nat) (k : Z) : result (list nat) -> Prop :=
  | sr_ok l : (1 <= k < Z.of_nat n)%Z -> Z.of_nat (length l) = k -> NoDup l -> (forall i, In i l -> i < n) ->
      split_result n k (Ok l)
  | sr_raise : split_result n k (Raise ValueError).

  (** distances.py:323-356.  Line 331 unpacks a generator of one item into two
      names, which raises ValueError; line 333 then draws the sample.  (The branch
      for scikit-learn before 0.18 is not modelled.) *)
  Inductive sample_distance (X : arr2 V) (y : list Z) (s : sample_arg) (strategy : string) :
      result (arr2 V * list nat) -> Prop :=
  | sd_check e : check_vector_matrix_shape_fits_labels (Dense [nrow X; ncol X]) (Dense [length y]) = Raise e ->
      sample_distance X y s strategy (Raise e)
  | sd_strategy : check_vector_matrix_shape_fits_labels (Dense [nrow X; ncol X]) (Dense [length y]) = Ok tt ->
      strategy <> "a"%string -> sample_distance X y s strategy (Raise NotImplementedError)
  | sd_split e : check_vector_matrix_shape_fits_labels (Dense [nrow X; ncol X]) (Dense [length y]) = Ok tt ->
      strategy = "a"%string -> split_result (nrow X) (sample_number s (nrow X)) (Raise e) ->
      sample_distance X y s strategy (Raise e)
  | sd_ok l : check_vector_matrix_shape_fits_labels (Dense [nrow X; ncol X]) (Dense [length y]) = Ok tt ->
      strategy = "a"%string -> split_result (nrow X) (sample_number s (nrow X)) (Ok l) ->
      sample_distance X y s strategy
        (Ok (Arr2 (nrow X) (length l) (fun i a => cdist (ncol X) (at2 X i) (at2 X (nth a l 0))), l)).
End Sample.
