(** Model of the random numbers in /repo/hub_toolbox/hubness.py: hubness 94-302.
    [M_Hubness] leaves open which permutation shuffles which row; here they are
    drawn from numpy's generators.  With one process a new generator is seeded by
    [random_state] (line 256).  With worker processes (line 207) the permutations
    come from the global generator np.random (line 85): a forked worker has a copy
    of the state that np.random had in the parent when the worker was forked, and
    nothing the worker draws changes the state of the parent or of other workers. *)
From Coq Require Import String.
From Coq Require Import ZArith List Arith Lia Bool.
From Verif Require Import Py Num Arr Sort Conc M_IO M_Hubness M_Start.
Import ListNotations.
Local Open Scope py_scope.

Section Rng.
  Context {V : Type} {N : Num V}.
  Variable argpart : list V -> list nat -> list nat.
  (** a generator: [perm m g] is permutation(m) of a generator in state [g] and its
      next state (hubness.py:85, 286) *)
  Context {G : Type}.
  Variable perm : nat -> G -> list nat * G.
  (** hubness.py:256: [RandomState(s)] *)
  Variable seeded : Z -> G.

  (** hubness.py:269-292: the loop over the rows; the generator is used if shuffle_equal *)
  Fixpoint seeded_rows (metric : string) (kth : list Z) (se : bool) (D : arr2 V) (rows : list nat) (g : G) :
      result (list (list nat)) :=
    match rows with
    | [] => Ok []
    | i :: l =>
        let (sh, g') := if se then let (rp, g') := perm (ncol D) g in (Some rp, g') else (None, g) in
        let* r := hub_row_nn argpart metric kth sh (hub_row metric D i) in
        let* rs := seeded_rows metric kth se D l g' in
        Ok (r :: rs)
    end.
  (** hubness.py:154-160, 230-302: n_jobs = 1; [entropy] is the state of a generator
      that the operating system seeds, for random_state=None *)
  Definition hubness_seeded (sparse : bool) (D : arr2 V) (k : Z) (metric : string) (se : bool)
      (random_state : option Z) (entropy : G) : result hub_out :=
    check_valid_metric_parameter metric ;;
    let n := nrow D in let m := ncol D in
    let k := hub_k k m in
    guard (k <? 0)%Z ValueError ;;
    let kth := hub_kth_ser metric n m k in
    let rnd := match random_state with Some s => seeded s | None => entropy end in
    let D := hub_prepare sparse metric D in
    let* Dk := seeded_rows metric kth se D (seq 0 n) rnd in
    Ok (HubOut Dk (bincount (concat Dk) m)).

  (** hubness.py:85, 207-217: the permutations of the rows.  [who] tells which worker
      takes which row: rows are handed out one by one in order (imap, chunksize 1),
      so the [i]-th element of [who] is the worker of row [i]; [wg w] is the state of
      worker [w] *)
  Fixpoint draws (m : nat) (who : list nat) (wg : nat -> G) : list (list nat) :=
    match who with
    | [] => []
    | w :: l => let (rp, g') := perm m (wg w) in rp :: draws m l (upd wg w g')
    end.
  (** hubness.py:162-228: n_jobs > 1 without random_state, [p] forked workers, the
      state of np.random is [g] *)
  Definition hubness_forked (g : G) (p : nat) (who : list nat) (sparse : bool) (D : arr2 V) (k : Z)
      (metric : string) (se : bool) (r : result hub_out) : Prop :=
    length who = nrow D /\ (forall w, In w who -> w < p) /\
    hubness_parallel argpart sparse D k metric se
      (fun i => nth i (draws (ncol D) who (fun _ => g)) []) false r.
End Rng.
