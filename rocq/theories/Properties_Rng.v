(** Properties C148 and C149: which random generator hubness uses, and what that
    means for reproducible results and for equal distances. *)
From Coq Require Import String.
From Coq Require Import ZArith List Arith Lia Bool Permutation.
From Verif Require Import Py Num NumT Arr Sort S_Neighbors M_IO M_Hubness M_HubnessClass M_Rng P_Hubness P_Rng.
Import ListNotations.
Local Open Scope nat_scope.

(** what RandomState.permutation(m) guarantees *)
Definition shuffles {G} (perm : nat -> G -> list nat * G) : Prop :=
  forall m g, Permutation (fst (perm m g)) (seq 0 m).

(* ------------------------------------------------------------------ *)
(** ** C148 (1): hubness with n_jobs = 1 and a random_state returns the same on
    every call, whatever state the global generator is in, and leaves that
    state alone. *)
Theorem C148_function_reproducible :
  forall (V : Type) (N : Num V) argpart (G : Type) (perm : nat -> G -> list nat * G) (seeded : Z -> G)
    sparse (D : arr2 V) k metric shuffle_equal seed (w w' : world G),
    fst (hubness_1 argpart G perm seeded sparse D k metric shuffle_equal (Some seed) w) =
      fst (hubness_1 argpart G perm seeded sparse D k metric shuffle_equal (Some seed) w') /\
    snd (hubness_1 argpart G perm seeded sparse D k metric shuffle_equal (Some seed) w) = global _ w.
Proof. intros. split; reflexivity. Qed.

(** ** C148 (2): so does the class for sparse distances. *)
Theorem C148_class_sparse_reproducible :
  forall (V : Type) (N : Num V) rdist vsum vpow argpart (G : Type) (perm : nat -> G -> list nat * G) (seeded : Z -> G)
    k (hub_size : V) bs n_jobs shuffle_equal has_self seed m rows (w w' : world G) r,
    class_fit rdist vsum vpow argpart G perm seeded k hub_size bs n_jobs shuffle_equal has_self (Some seed) (InSparse m rows) w r ->
    class_fit rdist vsum vpow argpart G perm seeded k hub_size bs n_jobs shuffle_equal has_self (Some seed) (InSparse m rows) w' r.
Proof. intros. exact H. Qed.

(** ** C148 (3), DEFECT: for dense distances the class ignores random_state: all
    seeds give the same result, ... *)
Theorem C148_class_dense_ignores_random_state :
  forall (V : Type) (N : Num V) rdist vsum vpow argpart (G : Type) (perm : nat -> G -> list nat * G) (seeded : Z -> G)
    k (hub_size : V) bs n_jobs shuffle_equal has_self seed seed' D (w : world G) r,
    class_fit rdist vsum vpow argpart G perm seeded k hub_size bs n_jobs shuffle_equal has_self seed (InDense D) w r ->
    class_fit rdist vsum vpow argpart G perm seeded k hub_size bs n_jobs shuffle_equal has_self seed' (InDense D) w r.
Proof. intros. exact H. Qed.

(** the state of the toy generator is the next permutation: upwards or downwards *)
Definition toy_perm (m : nat) (g : bool) : list nat * bool := ((if g then seq 0 m else rev (seq 0 m)), g).
Lemma toy_shuffles : shuffles toy_perm.
Proof. intros m []; cbn; [reflexivity|]. apply Permutation_sym, Permutation_rev. Qed.
Definition three_equal : arr2 f64 := Arr2 3 3 (fun i j => if i =? j then n0 else n1).

(** ... and one seed gives different results: three objects with equal distances *)
Theorem C148_class_dense_not_reproducible :
  shuffles toy_perm /\
  exists (w w' : world bool) (r r' : hub_fit), forall seed,
    let fit := class_fit (V:=f64) (fun _ _ _ => n0) (fun _ => n0) (fun x _ => x) ref_argpart bool toy_perm (fun _ => true)
                 1 n1 1 1 true true (Some seed) (InDense three_equal) in
    fit w (Ok r) /\ fit w' (Ok r') /\ f_nn r = [[1]; [0]; [0]] /\ f_nn r' = [[2]; [2]; [1]].
Proof.
  split; [exact toy_shuffles|]. exists (World _ true true), (World _ false true).
  set (nn := fun g => k_neighbors_precomputed ref_argpart three_equal (zarange 0 2) 1 2 (Some (fun i => draw bool toy_perm 3 i g))).
  assert (E1 : nn true = Ok [[1]; [0]; [0]]) by (vm_compute; reflexivity).
  assert (E2 : nn false = Ok [[2]; [2]; [1]]) by (vm_compute; reflexivity).
  set (ms := fun l => measures (V:=f64) (fun _ => n0) (fun x _ => x) 1 n1 3 3 l).
  assert (M : forall l, length (bincount (concat l) 3) <> 0 -> exists h, ms l = Ok h /\ f_nn h = l).
  { intros l Hl. unfold ms, measures. destruct (length (bincount (concat l) 3) =? 0) eqn:E; [now apply Nat.eqb_eq in E|].
    cbn [guard bind]. eexists. split; [reflexivity|]. reflexivity. }
  destruct (M [[1]; [0]; [0]] ltac:(vm_compute; discriminate)) as (r & R1 & R2).
  destruct (M [[2]; [2]; [1]] ltac:(vm_compute; discriminate)) as (r' & R1' & R2').
  exists r, r'. intros seed fit. unfold fit, class_fit. split; [|split; [|split]]; auto.
  - rewrite <- R1. assert (K : ms [[1]; [0]; [0]] = bind (nn true) ms) by now rewrite E1. rewrite K.
    apply (ft_pre_dense (V:=f64) (fun _ _ _ => n0) (fun _ => n0) (fun x _ => x) ref_argpart "precomputed" 1 n1 1 1
      (Some (class_perms bool toy_perm (InDense three_equal) (own_state bool (fun _ => true) (Some seed)) (global bool (World _ true true)))) true three_equal eq_refl).
  - rewrite <- R1'. assert (K : ms [[2]; [2]; [1]] = bind (nn false) ms) by now rewrite E2. rewrite K.
    apply (ft_pre_dense (V:=f64) (fun _ _ _ => n0) (fun _ => n0) (fun x _ => x) ref_argpart "precomputed" 1 n1 1 1
      (Some (class_perms bool toy_perm (InDense three_equal) (own_state bool (fun _ => true) (Some seed)) (global bool (World _ false true)))) true three_equal eq_refl).
Qed.

(** ** C148 (4): without random_state, hubness with n_jobs = 1 does not use the
    global generator: the result is the same whatever state np.random is in, and
    that state stays as it is. *)
Theorem C148_unseeded_ignores_global :
  forall (V : Type) (N : Num V) argpart (G : Type) (perm : nat -> G -> list nat * G) (seeded : Z -> G)
    sparse (D : arr2 V) k metric shuffle_equal (g g' e : G),
    fst (hubness_1 argpart G perm seeded sparse D k metric shuffle_equal None (World _ g e)) =
      fst (hubness_1 argpart G perm seeded sparse D k metric shuffle_equal None (World _ g' e)) /\
    snd (hubness_1 argpart G perm seeded sparse D k metric shuffle_equal None (World _ g e)) = g.
Proof. intros. split; reflexivity. Qed.

(** So np.random.seed does not make such a call reproducible: with one state of
    the global generator, fresh entropy gives different neighbours. *)
Theorem C148_unseeded_not_reproducible :
  shuffles toy_perm /\
  exists (g e e' : bool), forall seeded,
    let nn := fun e => match fst (hubness_1 (V:=f64) ref_argpart bool toy_perm seeded false three_equal 1 "distance" true None (World _ g e)) with
                       | Ok o => out_Dk o | Raise _ => [] end in
    nn e = [[1]; [0]; [0]] /\ nn e' = [[2]; [2]; [1]].
Proof. split; [exact toy_shuffles|]. exists true, true, false. intros seeded nn. split; vm_compute; reflexivity. Qed.

(* ------------------------------------------------------------------ *)
(** ** C149, DEFECT: forked workers shuffle alike. *)
Section Fork.
  Context {V : Type} {N : Num V} {toX : V -> xr} (CL : CmpLaws V N toX).

  Lemma after_perm {G} (perm : nat -> G -> list nat * G) : shuffles perm -> forall m j g, Permutation (draw G perm m j g) (seq 0 m).
  Proof. intros H m j g. apply H. Qed.

  Lemma position_one workers i : (forall l, In l workers -> length l <= 1) -> position i workers = 0.
  Proof.
    induction workers as [|l ws IH]; intros H; [reflexivity|]. cbn [position].
    destruct l as [|x l]; cbn [index_of]; [apply IH; intros; apply H; now right|].
    specialize (H (x :: l) (or_introl eq_refl)) as L. cbn in L. destruct l; [|cbn in L; lia].
    cbn [index_of]. destruct (x =? i); [reflexivity|]. cbn. apply IH. intros; apply H; now right.
  Qed.

  (** (1) all distances equal, every worker handles at most one row: shuffling
      does not prevent hubs.  With the stable argpartition, the first [k] objects
      of the one common permutation are neighbours of all other objects, the
      next one has [k] occurrences, all others have none. *)
  Theorem C149_equal_distances_become_hubs :
    forall (G : Type) (perm : nat -> G -> list nat * G), shuffles perm ->
    forall (D : arr2 V) (c : V) (k : nat) workers (w : world G) r g',
      nrow D = ncol D -> nisfin c = true ->
      (forall x y, x < nrow D -> y < nrow D -> x <> y -> at2 D x y = c) -> k < nrow D ->
      (forall l, In l workers -> length l <= 1) ->
      hubness_fork ref_argpart G perm false D (Z.of_nat k) "distance" true None workers w r g' ->
      let rp := fst (perm (nrow D) (global _ w)) in
      exists o, r = Ok o /\
        forall j, j < nrow D -> nth (nth j rp 0) (out_Nk o) 0 =
          if j <? k then nrow D - 1 else if j =? k then k else 0.
  Proof.
    intros G perm Sh D c k workers w r g' Sq Fc HD Hk Hw (Hr & _) rp.
    assert (Pm : Permutation rp (seq 0 (nrow D))) by apply Sh.
    assert (HR : forall i, i < nrow D -> draw G perm (ncol D) (position i workers) (global _ w) = rp).
    { intros i _. rewrite position_one by exact Hw. rewrite <- Sq. reflexivity. }
    apply (hubness_parallel_det CL ref_argpart (ref_argpart_ok CL)) in Hr.
    2:{ intros i Hi. rewrite HR by exact Hi. now rewrite <- Sq. }
    destruct (equal_counts CL D c k rp _ Sq Fc HD Hk Pm HR) as (Dk & E & Cn).
    assert (Kk : hub_k (Z.of_nat k) (ncol D) = Z.of_nat k).
    { unfold hub_k. rewrite <- Sq. replace (Z.of_nat (nrow D) <=? Z.of_nat k)%Z with false by (symmetry; apply Z.leb_gt; lia). reflexivity. }
    unfold hubness_par_seq in Hr. rewrite Kk in Hr. change (check_valid_metric_parameter "distance") with (Ok tt) in Hr.
    replace (Z.of_nat k <? 0)%Z with false in Hr by (symmetry; apply Z.ltb_ge; lia). cbn [bind guard] in Hr. rewrite E in Hr. cbn [bind] in Hr.
    eexists. split; [exact Hr|]. exact Cn.
  Qed.

  (** (1b) any distribution of the rows: for every t, the first [k] objects of
      the permutation of round t are neighbours of all rows that are the
      (t+1)-th row of their worker (but themselves).  So with p workers that
      have at least one row, there are objects with p - 1 occurrences or more. *)
  Theorem C149_hubs_as_large_as_the_pool :
    forall (G : Type) (perm : nat -> G -> list nat * G), shuffles perm ->
    forall (D : arr2 V) (c : V) (k t : nat) workers (w : world G) r g',
      nrow D = ncol D -> nisfin c = true ->
      (forall x y, x < nrow D -> y < nrow D -> x <> y -> at2 D x y = c) -> k < nrow D ->
      hubness_fork ref_argpart G perm false D (Z.of_nat k) "distance" true None workers w r g' ->
      let rp := draw G perm (nrow D) t (global _ w) in
      let together := filter (fun i => position i workers =? t) (seq 0 (nrow D)) in
      exists o, r = Ok o /\ forall j, j < k -> length together - 1 <= nth (nth j rp 0) (out_Nk o) 0.
  Proof.
    intros G perm Sh D c k t workers w r g' Sq Fc HD Hk (Hr & _) rp together.
    apply (hubness_parallel_det CL ref_argpart (ref_argpart_ok CL)) in Hr; [|intros i _; apply Sh].
    destruct (equal_counts_round CL D c k (fun i => draw G perm (ncol D) (position i workers) (global _ w)) rp
                (fun i => position i workers =? t) Sq Fc HD Hk) as (Dk & E & Cn).
    { intros i _. rewrite Sq. apply Sh. }
    { apply Sh. }
    { intros i _ Hi. apply Nat.eqb_eq in Hi. rewrite Hi. unfold rp. now rewrite Sq. }
    assert (Kk : hub_k (Z.of_nat k) (ncol D) = Z.of_nat k).
    { unfold hub_k. rewrite <- Sq. replace (Z.of_nat (nrow D) <=? Z.of_nat k)%Z with false by (symmetry; apply Z.leb_gt; lia). reflexivity. }
    unfold hubness_par_seq in Hr. rewrite Kk in Hr. change (check_valid_metric_parameter "distance") with (Ok tt) in Hr.
    replace (Z.of_nat k <? 0)%Z with false in Hr by (symmetry; apply Z.ltb_ge; lia). cbn [bind guard] in Hr. rewrite E in Hr. cbn [bind] in Hr.
    eexists. split; [exact Hr|]. exact Cn.
  Qed.

  (** (2) the generator of the caller does not advance: the same call with the
      same distribution of rows shuffles in the same way again. *)
  Theorem C149_repeated_calls_shuffle_alike :
    forall (G : Type) (perm : nat -> G -> list nat * G), shuffles perm ->
    forall (argpart : list V -> list nat -> list nat), argpart_ok argpart ->
    forall sparse (D : arr2 V) k metric workers (w : world G) e r g' r' g'',
      hubness_fork argpart G perm sparse D k metric true None workers w r g' ->
      hubness_fork argpart G perm sparse D k metric true None workers (World _ g' e) r' g'' ->
      r' = r.
  Proof.
    intros G perm Sh argpart AP sparse D k metric workers w e r g' r' g'' (H & Eg) (H' & _). subst g'. cbn [global] in H'.
    apply (hubness_parallel_det CL argpart AP) in H; [|intros i _; apply Sh].
    apply (hubness_parallel_det CL argpart AP) in H'; [|intros i _; apply Sh]. congruence.
  Qed.
End Fork.

(** five objects with equal distances, five workers with one row each, k = 2:
    the call exists, meets the hypotheses, and gives two objects of maximal
    occurrence *)
Example C149_case : let D : arr2 f64 := Arr2 5 5 (fun i j => if i =? j then n0 else n1) in
  shuffles toy_perm /\ nrow D = ncol D /\ nisfin (n1 (V:=f64)) = true /\
  (forall l, In l [[0]; [1]; [2]; [3]; [4]] -> length l <= 1) /\
  (exists r, hubness_fork ref_argpart bool toy_perm false D 2 "distance" true None [[0]; [1]; [2]; [3]; [4]] (World _ true true) r true) /\
  match hubness_par_seq ref_argpart false D 2 "distance" true (fun i => draw bool toy_perm 5 (position i [[0]; [1]; [2]; [3]; [4]]) true) with
  | Ok o => out_Nk o = [4; 4; 2; 0; 0]
  | Raise _ => False
  end.
Proof.
  cbv zeta. split; [exact toy_shuffles|]. split; [reflexivity|]. split; [reflexivity|]. split.
  { intros l Hl. repeat (destruct Hl as [<-|Hl]; [cbn; lia|]). destruct Hl. }
  split; [|vm_compute; reflexivity].
  destruct (hubness_parallel_exists ref_argpart false (Arr2 5 5 (fun i j => if i =? j then n0 else n1 (V:=f64))) 2 "distance" true
    (fun i => draw bool toy_perm 5 (position i [[0]; [1]; [2]; [3]; [4]]) true) false) as (r & H).
  exists r. split; [exact H|reflexivity].
Qed.

(** six objects, three workers with two rows each: three rows of round 1 *)
Example C149_pool_case :
  length (filter (fun i => position i [[0; 3]; [1; 4]; [2; 5]] =? 1) (seq 0 6)) = 3 /\
  match hubness_par_seq ref_argpart false (Arr2 6 6 (fun i j => if i =? j then n0 else n1 (V:=f64))) 1 "distance" true
          (fun i => draw bool toy_perm 6 (position i [[0; 3]; [1; 4]; [2; 5]]) true) with
  | Ok o => 2 <= nth 0 (out_Nk o) 0
  | Raise _ => False
  end.
Proof. split; [reflexivity|]. vm_compute. repeat constructor. Qed.

(** three objects with equal distances: the seed decides, and nothing else *)
Example C148_case :
  map (fun s => match fst (hubness_1 ref_argpart bool toy_perm (fun z => (0 <? z)%Z) false three_equal 1 "distance" true (Some s) (World _ true false)) with
                | Ok o => out_Dk o | Raise _ => [] end) [1; -1]%Z = [[[1]; [0]; [0]]; [[2]; [2]; [1]]].
Proof. vm_compute. reflexivity. Qed.

Print Assumptions C148_function_reproducible.
Print Assumptions C148_class_sparse_reproducible.
Print Assumptions C148_class_dense_ignores_random_state.
Print Assumptions C148_class_dense_not_reproducible.
Print Assumptions C148_unseeded_ignores_global.
Print Assumptions C148_unseeded_not_reproducible.
Print Assumptions C149_equal_distances_become_hubs.
Print Assumptions C149_hubs_as_large_as_the_pool.
Print Assumptions C149_repeated_calls_shuffle_alike.
