(** Shared-memory worker pools.

    [multiprocessing.Pool(...).imap(f, range(n))] hands tasks to worker
    processes; the workers' functions only read data fixed before the pool was
    started (inherited at fork) and write cells of shared [RawArray] buffers.
    A task is therefore the list of cell writes it performs.  A pool run is any
    distribution of the tasks over any number of workers together with any
    interleaving of the individual writes of the workers. *)
From Coq Require Import List Arith Lia Bool Permutation.
From Verif Require Import Py Num Arr.
Import ListNotations.

(** all interleavings of a family of sequences *)
Inductive interleave {A : Type} : list (list A) -> list A -> Prop :=
| il_done ts : (forall t, In t ts -> t = []) -> interleave ts []
| il_step pre a t post w :
    interleave (pre ++ t :: post) w -> interleave (pre ++ (a :: t) :: post) (a :: w).

Section Pool.
  Context {C V : Type} (ceq : C -> C -> bool).

  Definition mem := C -> V.
  Definition write := (C * V)%type.
  Definition do_write (m : mem) (w : write) : mem :=
    fun c => if ceq c (fst w) then snd w else m c.
  Definition run (m : mem) (ws : list write) : mem := fold_left do_write ws m.

  (** sequential execution of the tasks in order: [for t in tasks: t()] *)
  Definition run_serial (m : mem) (tasks : list (list write)) : mem := run m (concat tasks).

  (** [m'] is a possible final memory of a pool run *)
  Definition pool_run (m : mem) (tasks : list (list write)) (m' : mem) : Prop :=
    exists (workers : list (list (list write))) (w : list write),
      Permutation (concat workers) tasks /\
      interleave (map (@concat write) workers) w /\
      m' = run m w.

  (** no cell is written by two different tasks *)
  Definition disjoint_tasks (tasks : list (list write)) : Prop :=
    forall pre t mid t' post, tasks = pre ++ t :: mid ++ t' :: post ->
      forall c, In c (map fst t) -> ~ In c (map fst t').
End Pool.

Section Facts.
  Context {C V : Type} (ceq : C -> C -> bool)
          (ceq_spec : forall a b, ceq a b = true <-> a = b).

  Notation write := (@write C V).

  Lemma interleave_filter {A} (p : A -> bool) ts w :
    interleave ts w -> interleave (map (filter p) ts) (filter p w).
  Proof.
    induction 1 as [ts H | pre a t post w H IH].
    - apply il_done. intros t Ht. apply in_map_iff in Ht as (t' & <- & Ht').
      now rewrite (H t' Ht').
    - rewrite map_app in *; simpl in *. destruct (p a).
      + now apply il_step.
      + assumption.
  Qed.

  Lemma concat_all_nil {A} (ts : list (list A)) : (forall t, In t ts -> t = []) -> concat ts = [].
  Proof.
    induction ts as [|t ts IH]; simpl; intros H; [reflexivity|].
    rewrite (H t), IH; auto.
  Qed.

  Lemma at_most_one_concat {A} pre (t : list A) post :
    (forall x, In x pre -> x = []) -> (forall x, In x post -> x = []) ->
    concat (pre ++ t :: post) = t.
  Proof.
    intros H1 H2. rewrite concat_app; simpl.
    rewrite (concat_all_nil pre H1), (concat_all_nil post H2). now rewrite app_nil_r.
  Qed.

  (** number of non-empty sequences in a family *)
  Fixpoint nonempty {A} (ts : list (list A)) : nat :=
    match ts with
    | [] => 0
    | [] :: ts' => nonempty ts'
    | _ :: ts' => S (nonempty ts')
    end.

  Lemma nonempty_app {A} (ts1 ts2 : list (list A)) :
    nonempty (ts1 ++ ts2) = nonempty ts1 + nonempty ts2.
  Proof. induction ts1 as [|[|a t] ts1 IH]; simpl; lia. Qed.

  Lemma nonempty_0 {A} (ts : list (list A)) : nonempty ts = 0 -> forall t, In t ts -> t = [].
  Proof.
    induction ts as [|[|a t] ts IH]; simpl; intros H x Hx.
    - contradiction.
    - destruct Hx as [<-|Hx]; auto.
    - discriminate.
  Qed.

  Lemma nonempty_perm {A} (ts1 ts2 : list (list A)) :
    Permutation ts1 ts2 -> nonempty ts1 = nonempty ts2.
  Proof.
    induction 1 as [| [|? ?] | [|? ?] [|? ?] | ]; simpl; congruence.
  Qed.

  Lemma interleave_single {A} (ts : list (list A)) w :
    interleave ts w -> nonempty ts <= 1 -> w = concat ts.
  Proof.
    induction 1 as [ts H | pre a t post w H IH]; intros Hone.
    - now rewrite concat_all_nil.
    - rewrite nonempty_app in Hone; simpl in Hone.
      assert (H1 : nonempty pre = 0) by lia. assert (H2 : nonempty post = 0) by lia.
      rewrite (at_most_one_concat pre (a :: t) post) by now apply nonempty_0.
      rewrite (at_most_one_concat pre t post) in IH by now apply nonempty_0.
      f_equal. apply IH. rewrite nonempty_app; destruct t; simpl; lia.
  Qed.

  Lemma concat_single_perm {A} (ts1 ts2 : list (list A)) :
    Permutation ts1 ts2 -> nonempty ts1 <= 1 -> concat ts1 = concat ts2.
  Proof.
    induction 1 as [| x l l' HP IH | x y l | l l' l'' H1 IH1 H2 IH2 ]; intros Hone.
    - reflexivity.
    - simpl. destruct x; simpl in *; [auto|]. f_equal. f_equal. apply IH; lia.
    - destruct x, y; simpl in *; try reflexivity; lia.
    - rewrite IH1 by assumption. apply IH2. now rewrite <- (nonempty_perm _ _ H1).
  Qed.

  Lemma filter_concat {A} (p : A -> bool) (ts : list (list A)) :
    filter p (concat ts) = concat (map (filter p) ts).
  Proof.
    induction ts as [|t ts IH]; simpl; [reflexivity|].
    now rewrite filter_app, IH.
  Qed.

  Lemma nonempty_concat {A} (wss : list (list (list A))) :
    nonempty (map (@concat A) wss) <= nonempty (concat wss).
  Proof.
    induction wss as [|ws wss IH]; simpl; [lia|].
    rewrite nonempty_app.
    destruct (concat ws) as [|a l] eqn:E; [lia|].
    assert (nonempty ws <> 0); [|lia].
    intros H. rewrite (concat_all_nil ws (nonempty_0 ws H)) in E. discriminate.
  Qed.

  (** the final value of a cell depends only on the writes to that cell *)
  Lemma run_cell (m : mem (C:=C)) (ws : list write) c :
    run ceq m ws c = run ceq m (filter (fun w => ceq c (fst w)) ws) c.
  Proof.
    unfold run.
    assert (G : forall m1 m2 : mem, m1 c = m2 c ->
      fold_left (do_write ceq) ws m1 c
      = fold_left (do_write ceq) (filter (fun w => ceq c (fst w)) ws) m2 c).
    { induction ws as [|w ws IH]; intros m1 m2 E; simpl; [assumption|].
      destruct (ceq c (fst w)) eqn:Ec; simpl.
      - apply IH. unfold do_write. now rewrite Ec.
      - apply IH. unfold do_write. now rewrite Ec. }
    now apply G.
  Qed.

  Lemma disjoint_nonempty (tasks : list (list write)) c :
    disjoint_tasks tasks ->
    nonempty (map (filter (fun w => ceq c (fst w))) tasks) <= 1.
  Proof.
    induction tasks as [|t tasks IH]; intros Hd; simpl; [lia|].
    assert (Hd' : disjoint_tasks tasks).
    { intros pre t1 mid t2 post E. apply (Hd (t :: pre) t1 mid t2 post). simpl. now f_equal. }
    specialize (IH Hd').
    destruct (filter (fun w => ceq c (fst w)) t) as [|w l] eqn:E; [assumption|].
    assert (Hc : In c (map fst t)).
    { assert (In w (filter (fun w => ceq c (fst w)) t)) as Hw by (rewrite E; now left).
      apply filter_In in Hw as (Hw & Hcw). apply ceq_spec in Hcw. subst c.
      now apply in_map. }
    assert (nonempty (map (filter (fun w => ceq c (fst w))) tasks) = 0); [|lia].
    clear IH Hd'. assert (Hall : forall t', In t' tasks -> ~ In c (map fst t')).
    { intros t' Ht'. apply in_split in Ht' as (l1 & l2 & ->).
      apply (Hd [] t l1 t' l2); auto. }
    clear Hd. induction tasks as [|t' tasks IH]; simpl; [reflexivity|].
    replace (filter (fun w0 => ceq c (fst w0)) t') with (@nil write).
    - apply IH. intros; apply Hall; now right.
    - symmetry. destruct (filter (fun w0 => ceq c (fst w0)) t') as [|w' l'] eqn:E'; [reflexivity|].
      exfalso. apply (Hall t'); [now left|].
      assert (In w' (filter (fun w => ceq c (fst w)) t')) as Hw by (rewrite E'; now left).
      apply filter_In in Hw as (Hw & Hcw). apply ceq_spec in Hcw. subst c.
      now apply in_map.
  Qed.

  (** Main fact: with disjoint writes every pool run ends in the memory of the
      sequential run. *)
  Theorem pool_run_serial (m m' : mem (C:=C)) (tasks : list (list write)) :
    disjoint_tasks tasks -> pool_run ceq m tasks m' ->
    forall c, m' c = run_serial ceq m tasks c.
  Proof.
    intros Hd (workers & w & Hp & Hi & ->) c.
    unfold run_serial. rewrite (run_cell m w c), (run_cell m (concat tasks) c).
    set (p := fun w0 : write => ceq c (fst w0)).
    cut (filter p w = filter p (concat tasks)); 
      [intros E; exact (f_equal (fun l => run ceq m l c) E)|].
    pose proof (disjoint_nonempty tasks c Hd) as H1. fold p in H1.
    assert (H2 : nonempty (map (filter p) (concat workers)) <= 1).
    { rewrite (nonempty_perm _ (map (filter p) tasks)); [assumption|].
      now apply Permutation_map. }
    pose proof (interleave_filter p _ _ Hi) as Hif.
    rewrite map_map in Hif.
    assert (E : map (fun x => filter p (concat x)) workers
                = map (@concat _) (map (map (filter p)) workers)).
    { rewrite map_map. apply map_ext. intros. apply filter_concat. }
    rewrite E in Hif.
    apply interleave_single in Hif.
    - rewrite Hif. rewrite filter_concat.
      transitivity (concat (map (filter p) (concat workers))).
      + rewrite concat_map.
        generalize (map (map (filter p)) workers) as X.
        induction X as [|x X IH]; simpl; [reflexivity|].
        now rewrite concat_app, IH.
      + apply concat_single_perm; [now apply Permutation_map | assumption].
    - etransitivity; [apply nonempty_concat|]. now rewrite <- concat_map.
  Qed.

  (** tasks indexed by 0..n-1 *)
  Lemma disjoint_indexed (f : nat -> list write) n :
    (forall i j c, i < n -> j < n -> i <> j -> In c (map fst (f i)) -> ~ In c (map fst (f j))) ->
    disjoint_tasks (map f (seq 0 n)).
  Proof.
    intros H pre t mid t' post E c Hc Hc'.
    assert (L : n = length (pre ++ t :: mid ++ t' :: post))
      by (rewrite <- E, map_length, seq_length; reflexivity).
    rewrite app_length in L; simpl in L; rewrite app_length in L; simpl in L.
    assert (Et : f (length pre) = t).
    { rewrite <- (nth_map_seq f n (length pre) []) by lia. rewrite E.
      rewrite app_nth2, Nat.sub_diag by lia. reflexivity. }
    assert (Et' : f (length pre + S (length mid)) = t').
    { rewrite <- (nth_map_seq f n _ []) by lia. rewrite E.
      rewrite app_nth2 by lia.
      replace (length pre + S (length mid) - length pre) with (S (length mid)) by lia.
      simpl. rewrite app_nth2, Nat.sub_diag by lia. reflexivity. }
    apply (H (length pre) (length pre + S (length mid)) c); try lia.
    - now rewrite Et.
    - now rewrite Et'.
  Qed.
End Facts.

(** At least one pool run exists (one worker doing everything in order). *)
Lemma interleave_one {A} (l : list A) : interleave [l] l.
Proof.
  induction l as [|a l IH].
  - apply il_done. intros t [<-|[]]. reflexivity.
  - apply (il_step [] a l []). exact IH.
Qed.

Lemma pool_run_exists {C V} (ceq : C -> C -> bool) (m : mem (C:=C) (V:=V)) tasks :
  pool_run ceq m tasks (run_serial ceq m tasks).
Proof.
  exists [tasks], (concat tasks). simpl. rewrite app_nil_r.
  repeat split; auto. apply interleave_one.
Qed.

(** If all writes to a cell carry the same value, that value is the result. *)
Lemma run_value {C V} (ceq : C -> C -> bool)
    (ceq_spec : forall a b, ceq a b = true <-> a = b)
    (m : mem (C:=C) (V:=V)) ws c v :
  In (c, v) ws -> (forall v', In (c, v') ws -> v' = v) -> run ceq m ws c = v.
Proof.
  unfold run. intros Hin Hall.
  assert (G : forall m0 : mem, (m0 c = v \/ In (c, v) ws) ->
    fold_left (do_write ceq) ws m0 c = v).
  { clear Hin. induction ws as [|[c' v'] ws IH]; intros m0 H; simpl.
    - destruct H as [H|[]]; assumption.
    - apply IH; [intros; apply Hall; now right|].
      unfold do_write at 1; simpl. destruct (ceq c c') eqn:E.
      + apply ceq_spec in E; subst c'. left. apply Hall. now left.
      + destruct H as [H|[H|H]]; auto.
        injection H as <- <-. assert (ceq c' c' = true) by (apply ceq_spec; reflexivity).
        congruence. }
  apply G. now right.
Qed.

(** ... and a cell that nobody writes keeps its value *)
Lemma run_untouched {C V} (ceq : C -> C -> bool)
    (ceq_spec : forall a b, ceq a b = true <-> a = b)
    (m : mem (C:=C) (V:=V)) ws c :
  (forall v, ~ In (c, v) ws) -> run ceq m ws c = m c.
Proof.
  unfold run. revert m. induction ws as [|[c' v'] ws IH]; intros m H; simpl; [reflexivity|].
  rewrite IH by (intros v Hv; apply (H v); now right).
  unfold do_write; simpl. destruct (ceq c c') eqn:E; [|reflexivity].
  apply ceq_spec in E; subst. exfalso. apply (H v'). now left.
Qed.

Lemma interleave_perm {A} (ts : list (list A)) w : interleave ts w -> Permutation w (concat ts).
Proof.
  induction 1 as [ts H | pre a t post w H IH].
  - rewrite concat_all_nil by assumption. constructor.
  - rewrite concat_app in *. simpl in *. rewrite IH. now apply Permutation_middle.
Qed.

(** When every task only writes values determined by the cell, the final
    memory is determined, whatever the schedule. *)
Lemma pool_run_fun {C V} (ceq : C -> C -> bool)
    (ceq_spec : forall a b, ceq a b = true <-> a = b)
    (m m' : mem (C:=C) (V:=V)) tasks (f : C -> V) :
  (forall t c v, In t tasks -> In (c, v) t -> v = f c) ->
  pool_run ceq m tasks m' ->
  forall c, ((exists t, In t tasks /\ In (c, f c) t) -> m' c = f c) /\
            ((forall t v, In t tasks -> ~ In (c, v) t) -> m' c = m c).
Proof.
  intros Hf (workers & w & Hp & Hi & ->) c.
  assert (HW : forall p, In p w <-> exists t, In t tasks /\ In p t).
  { intros p. pose proof (interleave_perm _ _ Hi) as P.
    assert (E : concat (map (@concat write) workers) = concat (concat workers)).
    { clear. induction workers as [|x l IH]; simpl; [reflexivity|]. now rewrite concat_app, IH. }
    rewrite E in P. split.
    - intros Hin. eapply Permutation_in in Hin; [|exact P].
      apply in_concat in Hin as (t & Ht & Hin). exists t. split; [|assumption].
      eapply Permutation_in; [exact Hp|assumption].
    - intros (t & Ht & Hin). eapply Permutation_in; [symmetry; exact P|].
      apply in_concat. exists t. split; [|assumption].
      eapply Permutation_in; [symmetry; exact Hp|assumption]. }
  split.
  - intros Hex. apply (run_value ceq ceq_spec); [now apply HW|].
    intros v' Hv'. apply HW in Hv' as (t & Ht & Hv'). eauto.
  - intros Hno. apply (run_untouched ceq ceq_spec). intros v Hv.
    apply HW in Hv as (t & Ht & Hv). exact (Hno t v Ht Hv).
Qed.
