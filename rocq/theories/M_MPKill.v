(** Model of /repo/hub_toolbox/distances.py: mp_dissim 162-266 with worker processes
    that may be killed at any moment (forked workers, as in [M_MPDissim]).

    The first pool sends its results back as messages ([M_RPool]); the second one
    writes them into shared buffers ([M_Crash]).  [Pool.map] puts the results in
    their places as they come; the first exception that comes, whichever task
    raised it, is the one that is raised, as soon as it is there (before Python 3.8)
    or when all results are there. *)
From Coq Require Import String.
From Coq Require Import ZArith List Arith Lia Bool Relations.
From Verif Require Import Py Num Arr Sort Conc M_IO M_SNN M_MPDissim M_Start M_MPSpawn M_Crash M_RPool.
Import ListNotations.
Local Open Scope py_scope.
Local Open Scope nat_scope.

(** how [Pool.map] ends (distances.py:244-248) *)
Inductive mends {E T R} (chunks : list (list T)) (s : @rstate E T R) : result (list R) -> Prop :=
| me_raise e : In (Raise e) (rs_items s ++ map snd (rs_wait s)) -> mends chunks s (Raise e)
| me_ok ls : rs_items s = map Ok ls -> length ls = length chunks -> mends chunks s (Ok (concat ls)).

(** a call of [Pool.map] with [p] workers: any chunks, any schedule, any killed workers (distances.py:240-248) *)
Definition map_pool {E T R} (f : E -> T -> result R) (env : E) (p : nat) (tasks : list T) (r : result (list R)) : Prop :=
  exists chunks s, concat chunks = tasks /\ rhistory f env p (rstart chunks) s /\ mends chunks s r.

Section Kill.
  Context {V : Type} {N : Num V}.
  Variable vpow : V -> V -> V.
  Variable part : list V -> list nat -> list V.

  (** distances.py:244, 247: the task of the first pool for the value of bin_size, if it is valid; the
      worker reads [Y] and [n_bins] from its copies of the arguments of the initialiser (97-101) and
      [kth] from the forked memory *)
  Definition mpk_edges (bin_size : string) (step : nat) : option (arr2 V * nat -> nat -> result (list V)) :=
    if String.prefix bin_size "mass"%string then Some (fun e i => mass_edges part (mpd_kth (nrow (fst e)) step) (coll (fst e) i))
    else if String.prefix bin_size "range"%string then Some (fun e i => range_edges (snd e) (coll (fst e) i))
    else None.

  (** distances.py:206-210, 240: the number of worker processes *)
  Definition mpk_workers (n_jobs : Z) (cpus : nat) : nat := Z.to_nat (if n_jobs =? -1 then Z.of_nat cpus else n_jobs)%Z.

  (** distances.py:162-266: all ways in which a call ends.  One pool does the three
      maps of the second phase; here each has its own, which allows more histories. *)
  Inductive mp_dissim_killed (X : arr2 V) (Y0 : option (arr2 V)) (p : V) (n_bins : Z) (bin_size : string)
      (n_jobs : Z) (cpus : nat) : result (arr2 V) -> Prop :=
  | mk_check e :
      let Y := match Y0 with None => X | Some Y => Y end in
      mps_check X Y n_bins n_jobs cpus = Raise e ->
      mp_dissim_killed X Y0 p n_bins bin_size n_jobs cpus (Raise e)
  | mk_name step :
      let Y := match Y0 with None => X | Some Y => Y end in
      mps_check X Y n_bins n_jobs cpus = Ok step -> mpk_edges bin_size step = None ->
      mp_dissim_killed X Y0 p n_bins bin_size n_jobs cpus (Raise ValueError)
  | mk_first step f e :
      let Y := match Y0 with None => X | Some Y => Y end in
      mps_check X Y n_bins n_jobs cpus = Ok step -> mpk_edges bin_size step = Some f ->
      map_pool f (Y, Z.to_nat n_bins) (mpk_workers n_jobs cpus) (seq 0 (ncol X)) (Raise e) ->
      mp_dissim_killed X Y0 p n_bins bin_size n_jobs cpus (Raise e)
  | mk_second step f E i :
      let Y := match Y0 with None => X | Some Y => Y end in
      mps_check X Y n_bins n_jobs cpus = Ok step -> mpk_edges bin_size step = Some f ->
      map_pool f (Y, Z.to_nat n_bins) (mpk_workers n_jobs cpus) (seq 0 (ncol X)) (Ok E) ->
      i < ncol X -> hist_fits (Z.to_nat n_bins) (hist (nth i E []) (coll Y i)) = false ->
      mp_dissim_killed X Y0 p n_bins bin_size n_jobs cpus (Raise ValueError)
  | mk_run step f E Rb bb out :
      let Y := match Y0 with None => X | Some Y => Y end in
      let nb := Z.to_nat n_bins in
      let d := ncol X in
      let w := mpk_workers n_jobs cpus in
      mps_check X Y n_bins n_jobs cpus = Ok step -> mpk_edges bin_size step = Some f ->
      map_pool f (Y, nb) w (seq 0 d) (Ok E) ->
      (forall i, i < d -> hist_fits nb (hist (nth i E []) (coll Y i)) = true) ->
      killed_pool cell3_eq w (fun _ => 0) (seq 0 d) (fun i => r_task nb (hist (nth i E []) (coll Y i)) i) Rb ->
      killed_pool binc_eq w (fun _ => 0) (seq 0 d) (fun i => bin_task nb X Y (nth i E []) i) bb ->
      killed_pool celleq w (fun _ => n0) (seq 0 (nrow X))
        (mpd_task vpow (fun i b c => Rb (i, (b, c))) (fun i x => bb (true, (i, x))) (fun i y => bb (false, (i, y)))
           d (nrow X + nrow Y) (nrow Y) (mpd_p p)) out ->
      mp_dissim_killed X Y0 p n_bins bin_size n_jobs cpus
        (Ok (Arr2 (nrow X) (nrow Y) (fun x y => out (x, y)))).
End Kill.
