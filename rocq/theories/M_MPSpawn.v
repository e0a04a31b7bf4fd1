(** Model of /repo/hub_toolbox/distances.py: mp_dissim 162-266 with worker processes
    started by any method of multiprocessing.  [M_MPDissim] models forked workers,
    which inherit the module-level names [kth] and [histograms] that line 234
    declares global in the calling process.  Workers started by spawn or forkserver
    import the module anew: these two names do not exist there, and all other names
    they read are set by the initializers (lines 97-119). *)
From Coq Require Import String.
From Coq Require Import ZArith List Arith Lia Bool.
From Verif Require Import Py Num Arr Sort Conc M_IO M_SNN M_MPDissim M_Start.
Import ListNotations.
Local Open Scope py_scope.

(** a Python exception in a worker: one of [exc], or NameError (distances.py:121, 132, 140) *)
Inductive wexc := Known (e : exc) | NameErr.
(** the outcome of a task or of the call: Pool.map re-raises what a task raises
    (distances.py:245, 248, 257-263) *)
Inductive wres (A : Type) := Gives (a : A) | Throws (x : wexc).
Arguments Gives {A}. Arguments Throws {A}.
(** a part of the code that never reads a missing name (distances.py:123-129) *)
Definition wlift {A} (r : result A) : wres A := match r with Ok a => Gives a | Raise e => Throws (Known e) end.
(** one statement after the other (distances.py:121-136) *)
Definition wbind {A B} (r : wres A) (f : A -> wres B) : wres B := match r with Gives a => f a | Throws x => Throws x end.
(** Pool.map over a list of tasks that do not depend on each other: the results in
    order, or the exception of a task.  Simplification: if several tasks raise
    different exceptions, the first one in order (distances.py:245, 248, 257) *)
Fixpoint wmap {A B} (f : A -> wres B) (l : list A) : wres (list B) :=
  match l with
  | [] => Gives []
  | a :: l' => wbind (f a) (fun b => wbind (wmap f l') (fun bs => Gives (b :: bs)))
  end.
(** a worker reads a global name of the module that the parent process has set to
    [v] before it started the worker (distances.py:121 [kth], 132 and 140 [histograms]) *)
Definition reads {A} (st : start_method) (v : A) : wres A :=
  match st with Fork => Gives v | Spawn | ForkServer => Throws NameErr end.

Section Spawn.
  Context {V : Type} {N : Num V}.
  Variable vpow : V -> V -> V.
  Variable part : list V -> list nat -> list V.

  (** distances.py:206-240: everything before the first task of the first pool *)
  Definition mps_check (X Y : arr2 V) (n_bins n_jobs : Z) (cpus : nat) : result nat :=
    guard (negb (ncol X =? ncol Y)) AssertionError ;;
    guard (n_bins <? 0)%Z ValueError ;;
    guard (n_bins =? 0)%Z ZeroDivisionError ;;
    let step := mpd_step (nrow Y) (Z.to_nat n_bins) in
    guard (step =? 0) ValueError ;;
    guard ((if n_jobs =? -1 then Z.of_nat cpus else n_jobs) <? 1)%Z ValueError ;;
    Ok step.
  (** distances.py:206-251: everything before the second pool; the bin edges *)
  Definition mps_prepare (st : start_method) (X Y : arr2 V) (n_bins : Z) (bin_size : string) (n_jobs : Z) (cpus : nat) :
      wres (list (list V)) :=
    wbind (wlift (mps_check X Y n_bins n_jobs cpus)) (fun step =>
    if String.prefix bin_size "mass"%string then
      wmap (fun i => wbind (reads st (mpd_kth (nrow Y) step)) (fun kth => wlift (mass_edges part kth (coll Y i)))) (seq 0 (ncol Y))
    else if String.prefix bin_size "range"%string then
      wmap (fun i => wlift (range_edges (Z.to_nat n_bins) (coll Y i))) (seq 0 (ncol Y))
    else Throws (Known ValueError)).

  (** distances.py:131-136: a task of the first map of the second pool up to its
      assignments: the histogram it is about to accumulate *)
  Definition mps_hist (st : start_method) (Y : arr2 V) (nb : nat) (E : list (list V)) (i : nat) : wres (list nat) :=
    wbind (reads st E) (fun E =>
      let h := hist (nth i E []) (coll Y i) in
      if hist_fits nb h then Gives h else Throws (Known ValueError)).

  (** distances.py:162-266: all outcomes, for any start method.  [Rb], [bb], [out] are the
      buffers of the parent at the end; writes of workers reach them if they are
      shared ([M_Start.shares]: numpy views are shared with forked workers only).
      Simplification: X and Y have at least one row and one column (as in
      [M_MPDissim]). *)
  Inductive mp_dissim_start (st : start_method) (X : arr2 V) (Y0 : option (arr2 V)) (p : V) (n_bins : Z) (bin_size : string)
      (n_jobs : Z) (cpus : nat) : wres (arr2 V) -> Prop :=
  | mps_fail x :
      let Y := match Y0 with None => X | Some Y => Y end in
      mps_prepare st X Y n_bins bin_size n_jobs cpus = Throws x ->
      mp_dissim_start st X Y0 p n_bins bin_size n_jobs cpus (Throws x)
  | mps_fail2 E x :
      let Y := match Y0 with None => X | Some Y => Y end in
      mps_prepare st X Y n_bins bin_size n_jobs cpus = Gives E ->
      wmap (mps_hist st Y (Z.to_nat n_bins) E) (seq 0 (ncol X)) = Throws x ->
      mp_dissim_start st X Y0 p n_bins bin_size n_jobs cpus (Throws x)
  | mps_run E hs Rb bb out :
      let Y := match Y0 with None => X | Some Y => Y end in
      let nb := Z.to_nat n_bins in
      let d := ncol X in
      mps_prepare st X Y n_bins bin_size n_jobs cpus = Gives E ->
      wmap (mps_hist st Y nb E) (seq 0 d) = Gives hs ->
      shares st AsView = true ->
      pool_run cell3_eq (fun _ => 0) (map (fun i => r_task nb (nth i hs []) i) (seq 0 d)) Rb ->
      pool_run binc_eq (fun _ => 0) (map (fun i => bin_task nb X Y (nth i E []) i) (seq 0 d)) bb ->
      pool_run celleq (fun _ => n0)
        (map (mpd_task vpow (fun i b c => Rb (i, (b, c))) (fun i x => bb (true, (i, x))) (fun i y => bb (false, (i, y)))
                d (nrow X + nrow Y) (nrow Y) (mpd_p p)) (seq 0 (nrow X))) out ->
      mp_dissim_start st X Y0 p n_bins bin_size n_jobs cpus
        (Gives (Arr2 (nrow X) (nrow Y) (fun x y => out (x, y)))).
End Spawn.
