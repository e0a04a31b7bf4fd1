(** Where the random permutations of hubness come from (hubness.py:85, 256, 286,
    456, 544, 595).

    A generator has a state in [G]; [perm m g] is what [permutation(m)] returns
    in the state [g] and the state after it; [seeded s] is the state of a new
    RandomState(s). *)
From Coq Require Import String.
From Coq Require Import ZArith List Arith Lia Bool Permutation.
From Verif Require Import Py Num Arr Sort M_Hubness M_HubnessClass.
Import ListNotations.

Section Rng.
  Context {V : Type} {N : Num V}.
  Variable rdist : nat -> (nat -> V) -> (nat -> V) -> V.
  Variables (vsum : list V -> V) (vpow : V -> V -> V).
  Variable argpart : list V -> list nat -> list nat.
  Variable G : Type.
  Variable perm : nat -> G -> list nat * G.
  Variable seeded : Z -> G.

  (** the state after [j] permutations of length [m] (hubness.py:286) *)
  Fixpoint after (m j : nat) (g : G) : G :=
    match j with 0 => g | S j' => after m j' (snd (perm m g)) end.
  (** the permutation number [j], counted from 0 (hubness.py:286) *)
  Definition draw (m j : nat) (g : G) : list nat := fst (perm m (after m j g)).

  (** the generators a call can reach: the global one of np.random, and fresh
      entropy from the operating system for RandomState(None) (hubness.py:85, 256) *)
  Record world := World { global : G; entropy : G }.

  (** hubness.py:94-165, 230-302 hubness with n_jobs = 1: [rnd = RandomState(random_state)]
      (256), one permutation per row from [rnd] (286); the global generator is
      not used *)
  Definition hubness_1 (sparse : bool) (D : arr2 V) (k : Z) (metric : string) (shuffle_equal : bool)
      (random_state : option Z) (w : world) : result hub_out * G :=
    let rnd := match random_state with Some s => seeded s | None => entropy w end in
    (hubness_serial argpart sparse D k metric shuffle_equal (fun i => draw (ncol D) i rnd), global w).

  (** the position of row [i] in the list of rows a worker handles (hubness.py:207-217) *)
  Fixpoint index_of (i : nat) (l : list nat) : option nat :=
    match l with
    | [] => None
    | x :: l' => if x =? i then Some 0 else option_map S (index_of i l')
    end.
  (** the same for the list of all workers (hubness.py:207-217) *)
  Fixpoint position (i : nat) (workers : list (list nat)) : nat :=
    match workers with
    | [] => 0
    | l :: ws => match index_of i l with Some j => j | None => position i ws end
    end.

  (** hubness.py:162-228 hubness with n_jobs <> 1 and worker processes started by fork (the
      default on Linux up to Python 3.13): each worker has its own copy of the
      global generator, in the state it had in the parent; [workers] lists the
      rows of each worker in the order in which it handles them; row [i] uses
      [np.random.permutation] of its worker (85).  The generator of the parent
      stays as it is. *)
  Definition hubness_fork (sparse : bool) (D : arr2 V) (k : Z) (metric : string) (shuffle_equal : bool)
      (random_state : option Z) (workers : list (list nat)) (w : world) (r : result hub_out) (g' : G) : Prop :=
    hubness_parallel argpart sparse D k metric shuffle_equal
      (fun i => draw (ncol D) (position i workers) (global w))
      (match random_state with Some _ => true | None => false end) r /\
    g' = global w.

  (** check_random_state (hubness.py:456): the object keeps a generator of its own if
      random_state is a number, and the global one if it is None *)
  Definition own_state (random_state : option Z) : option G := option_map seeded random_state.

  (** hubness.py:585-598: the permutations of the sparse case, one of length nnz per row,
      from one generator *)
  Fixpoint sparse_draws (lens : list nat) (g : G) : list (list nat) :=
    match lens with
    | [] => []
    | m :: l => fst (perm m g) :: sparse_draws l (snd (perm m g))
    end.

  (** hubness.py:530-551 (dense: np.random.permutation, 544), 585-598 (sparse:
      self.random_state.permutation, 595): the permutations of a call *)
  Definition class_perms (X : @hub_input V) (own : option G) (g : G) : nat -> list nat :=
    match X with
    | InDense D => fun i => draw (ncol D) i g
    | InSparse _ rows =>
        fun i => nth i (sparse_draws (map (@length _) rows) (match own with Some o => o | None => g end)) []
    end.

  (** hubness.py:671-734 the first fit_transform of a new object Hubness(metric='precomputed',
      random_state=...) *)
  Definition class_fit (k : nat) (hub_size : V) (bs n_jobs : Z) (shuffle_equal has_self : bool)
      (random_state : option Z) (X : @hub_input V) (w : world) (r : result hub_fit) : Prop :=
    fit_transform rdist vsum vpow argpart "precomputed"%string k hub_size bs n_jobs
      (if shuffle_equal then Some (class_perms X (own_state random_state) (global w)) else None) has_self X None r.
End Rng.
