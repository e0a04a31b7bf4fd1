(** Model of /repo/hub_toolbox/distances.py: mp_dissim 97-266 called from several
    threads of one process.  [M_MPDissim] models one call on its own; here the
    module-level names [histograms] and [kth], which line 234 declares global in
    the calling process, are shared by all calls in progress.  Worker processes
    are forked one after the other and each keeps the values these names had when
    it was forked.  All other names the workers read are set by the initializers
    (lines 97-119) from the call's own arguments. *)
From Coq Require Import String.
From Coq Require Import ZArith List Arith Lia Bool.
From Verif Require Import Py Num Arr Sort Conc M_IO M_SNN M_MPDissim.
Import ListNotations.
Local Open Scope py_scope.

Section Threads.
  Context {V : Type} {N : Num V}.
  Variable vpow : V -> V -> V.
  Variable part : list V -> list nat -> list V.

  (** what np.histogram returns: the counts and the bin edges (distances.py:126, 129) *)
  Definition histo := (list nat * list V)%type.

  (** the global names of distances.py:234.  Before the first call they are not
      defined; no call reads them before it has written them, so any initial
      value stands for that. *)
  Record globals := Globals { g_kth : list nat; g_hist : list histo }.

  (** the arguments of one call, distances.py:162-163, and the number of
      processors (line 214) *)
  Record mcall := MCall { c_X : arr2 V; c_Y : option (arr2 V); c_p : V; c_bins : Z; c_bin : string;
                          c_jobs : Z; c_cpus : nat }.

  (** distances.py:206-208 *)
  Definition call_Y (c : mcall) : arr2 V := match c_Y c with None => c_X c | Some Y => Y end.
  (** distances.py:216 *)
  Definition call_nb (c : mcall) : nat := Z.to_nat (c_bins c).
  (** distances.py:213-214 *)
  Definition call_workers (c : mcall) : Z := if (c_jobs c =? -1)%Z then Z.of_nat (c_cpus c) else c_jobs c.

  (** distances.py:204-235: what may fail before line 235 assigns [kth] *)
  Definition call_check (c : mcall) : result unit :=
    guard (negb (ncol (c_X c) =? ncol (call_Y c))) AssertionError ;;
    guard (c_bins c <? 0)%Z ValueError ;;
    guard (c_bins c =? 0)%Z ZeroDivisionError ;;
    guard (mpd_step (nrow (call_Y c)) (call_nb c) =? 0) ValueError ;;
    Ok tt.

  (** distances.py:235: [np.arange(0, n_y)[0:n_y:int(n_y/n_bins)]] *)
  Definition raw_kth (n_y step : nat) : list nat :=
    map (fun t => t * step) (seq 0 ((n_y + step - 1) / step)).

  (** distances.py:121-129: one task of the first pool, run by a worker that was
      forked when [kth] had the value [kth]; line 244-251 choose the task.
      [None]: line 250-251 raises ValueError without a task. *)
  Definition hist_task (c : mcall) : option (list nat -> nat -> result histo) :=
    let Y := call_Y c in
    if String.prefix (c_bin c) "mass"%string then
      Some (fun kth i => let* e := mass_edges part kth (coll Y i) in Ok (hist e (coll Y i), e))
    else if String.prefix (c_bin c) "range"%string then
      Some (fun _ i => let* e := range_edges (call_nb c) (coll Y i) in Ok (hist e (coll Y i), e))
    else None.

  (** how far a call has come, distances.py:204-266 *)
  Inductive phase :=
  | Start                              (* before line 235 *)
  | Test                               (* line 236 is next *)
  | ReadK                              (* line 237 is next: np.append reads [kth] *)
  | WriteK (k : list nat)              (* np.append has read [k]; the assignment is next *)
  | Fork1 (ws : list (list nat))       (* line 240: workers forked so far, with their [kth] *)
  | WriteH (h : list histo)            (* pool.map has returned; lines 245, 248 assign *)
  | Fork2 (ws : list (list histo))     (* line 253: workers forked so far, with their [histograms] *)
  | Done (r : result (arr2 V)).

  (** the histogram a worker with the copy [h] of [histograms] uses for feature i,
      lines 132, 140: IndexError if there is none *)
  Definition own_hist (h : list histo) (i : nat) : result histo :=
    match nth_error h i with Some x => Ok x | None => Raise IndexError end.

  (** distances.py:131-135: the assignments of feature [i] fit into the buffer *)
  Definition fit_task (nb : nat) (h : list histo) (i : nat) : result unit :=
    let* x := own_hist h i in guard (negb (hist_fits nb (fst x))) ValueError.

  (** distances.py:204-266: one step of a call; [who i], [who' i]: the worker that gets task i of a map *)
  Inductive mstep (c : mcall) : globals -> phase -> globals -> phase -> Prop :=
  (* lines 204-235 *)
  | ms_reject g e : call_check c = Raise e -> mstep c g Start g (Done (Raise e))
  | ms_kth g : call_check c = Ok tt ->
      mstep c g Start (Globals (raw_kth (nrow (call_Y c)) (mpd_step (nrow (call_Y c)) (call_nb c))) (g_hist g)) Test
  (* line 236 *)
  | ms_last g : last (g_kth g) 0 = nrow (call_Y c) - 1 -> mstep c g Test g (Fork1 [])
  | ms_not_last g : last (g_kth g) 0 <> nrow (call_Y c) - 1 -> mstep c g Test g ReadK
  (* line 237 *)
  | ms_read g : mstep c g ReadK g (WriteK (g_kth g))
  | ms_write g k : mstep c g (WriteK k) (Globals (k ++ [nrow (call_Y c) - 1]) (g_hist g)) (Fork1 [])
  (* lines 240-242 *)
  | ms_no_pool g : (call_workers c < 1)%Z -> mstep c g (Fork1 []) g (Done (Raise ValueError))
  | ms_fork1 g ws : (Z.of_nat (length ws) < call_workers c)%Z -> mstep c g (Fork1 ws) g (Fork1 (ws ++ [g_kth g]))
  (* lines 243-251 *)
  | ms_bad_bin g ws : (1 <= call_workers c)%Z -> Z.of_nat (length ws) = call_workers c -> hist_task c = None ->
      mstep c g (Fork1 ws) g (Done (Raise ValueError))
  | ms_map1_fail g ws f i w e : (1 <= call_workers c)%Z -> Z.of_nat (length ws) = call_workers c -> hist_task c = Some f ->
      i < ncol (call_Y c) -> In w ws -> f w i = Raise e ->
      mstep c g (Fork1 ws) g (Done (Raise e))
  | ms_map1 g ws f who h : (1 <= call_workers c)%Z -> Z.of_nat (length ws) = call_workers c -> hist_task c = Some f ->
      (forall i, i < ncol (call_Y c) -> who i < length ws) ->
      mapM (fun i => f (nth (who i) ws []) i) (seq 0 (ncol (call_Y c))) = Ok h ->
      mstep c g (Fork1 ws) g (WriteH h)
  | ms_hist g h : mstep c g (WriteH h) (Globals (g_kth g) h) (Fork2 [])
  (* lines 253-256 *)
  | ms_fork2 g ws : (Z.of_nat (length ws) < call_workers c)%Z -> mstep c g (Fork2 ws) g (Fork2 (ws ++ [g_hist g]))
  (* line 257: one of the tasks fails *)
  | ms_map2_fail g ws i w e : Z.of_nat (length ws) = call_workers c ->
      i < ncol (c_X c) -> In w ws -> fit_task (call_nb c) w i = Raise e ->
      mstep c g (Fork2 ws) g (Done (Raise e))
  (* line 260: one of the tasks fails, after line 257 went well *)
  | ms_map3_fail g ws who i w e : Z.of_nat (length ws) = call_workers c ->
      (forall i, i < ncol (c_X c) -> who i < length ws) ->
      (forall i, i < ncol (c_X c) -> fit_task (call_nb c) (nth (who i) ws []) i = Ok tt) ->
      i < ncol (c_X c) -> In w ws -> own_hist w i = Raise e ->
      mstep c g (Fork2 ws) g (Done (Raise e))
  (* lines 257-266 *)
  | ms_map2 g ws who who' h2 h3 Rb bb out :
      Z.of_nat (length ws) = call_workers c ->
      (forall i, i < ncol (c_X c) -> who i < length ws) -> (forall i, i < ncol (c_X c) -> who' i < length ws) ->
      (forall i, i < ncol (c_X c) -> own_hist (nth (who i) ws []) i = Ok (h2 i)) ->
      (forall i, i < ncol (c_X c) -> fit_task (call_nb c) (nth (who i) ws []) i = Ok tt) ->
      (forall i, i < ncol (c_X c) -> own_hist (nth (who' i) ws []) i = Ok (h3 i)) ->
      pool_run cell3_eq (fun _ => 0) (map (fun i => r_task (call_nb c) (fst (h2 i)) i) (seq 0 (ncol (c_X c)))) Rb ->
      pool_run binc_eq (fun _ => 0)
        (map (fun i => bin_task (call_nb c) (c_X c) (call_Y c) (snd (h3 i)) i) (seq 0 (ncol (c_X c)))) bb ->
      pool_run celleq (fun _ => n0)
        (map (mpd_task vpow (fun i b c => Rb (i, (b, c))) (fun i x => bb (true, (i, x))) (fun i y => bb (false, (i, y)))
                (ncol (c_X c)) (nrow (c_X c) + nrow (call_Y c)) (nrow (call_Y c)) (mpd_p (c_p c)))
             (seq 0 (nrow (c_X c)))) out ->
      mstep c g (Fork2 ws) g
        (Done (Ok (Arr2 (nrow (c_X c)) (nrow (call_Y c)) (fun x y => out (x, y))))).

  (** several calls in progress; any of them makes the next step (the interpreter
      may switch threads between any two of the steps of lines 204-266) *)
  Definition sys := (globals * list (mcall * phase))%type.
  (** distances.py:204-266: one step of one call *)
  Inductive sstep : sys -> sys -> Prop :=
  | ss_one g g' pre c ph ph' post : mstep c g ph g' ph' ->
      sstep (g, pre ++ (c, ph) :: post) (g', pre ++ (c, ph') :: post).
  (** distances.py:204-266: any number of steps *)
  Inductive ssteps : sys -> sys -> Prop :=
  | st_refl s : ssteps s s
  | st_step s s' s'' : ssteps s s' -> sstep s' s'' -> ssteps s s''.
  (** all calls at their beginning, distances.py:204 *)
  Definition begin (g : globals) (cs : list mcall) : sys := (g, map (fun c => (c, Start)) cs).
End Threads.
