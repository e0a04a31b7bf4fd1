(** Property C173: random numbers in [hubness] (hubness.py:94-302). *)
From Coq Require Import String.
From Coq Require Import ZArith List Arith Lia Bool Permutation.
From Verif Require Import Py Num Arr Sort Conc S_Neighbors M_IO M_Hubness M_Start M_HubRng S_HubRng.
From Verif Require Import P_Hubness P_HubnessMain P_HubnessWide Properties_Hubness.
From Verif Require M_Rng.
Import ListNotations.
Local Open Scope nat_scope.

Section Draws.
  Context {V : Type} {N : Num V} {G : Type}.
  Variable perm : nat -> G -> list nat * G.

  Fixpoint after (m t : nat) (g : G) : G := match t with 0 => g | S t => after m t (snd (perm m g)) end.
  Lemma draw_after m t g : draw perm m t g = fst (perm m (after m t g)).
  Proof. revert g. induction t as [|t IH]; intros g; [reflexivity|]. cbn. apply IH. Qed.
  Lemma after_S m t g : after m (S t) g = snd (perm m (after m t g)).
  Proof. revert g. induction t as [|t IH]; intros g; [reflexivity|]. cbn [after] in *. now rewrite IH. Qed.

  Lemma draws_nth m who : forall (c : nat -> nat) (wg : nat -> G) g i,
    (forall w, wg w = after m (c w) g) -> i < length who ->
    nth i (draws perm m who wg) [] = draw perm m (c (nth i who 0) + turn who i) g.
  Proof.
    induction who as [|w l IH]; intros c wg g i Hwg Hi; [cbn in Hi; lia|].
    cbn [draws]. destruct (perm m (wg w)) as [rp g'] eqn:E. destruct i as [|i].
    - unfold turn. cbn [firstn count_occ nth]. rewrite Nat.add_0_r, draw_after, <- Hwg, E. reflexivity.
    - cbn [nth]. rewrite (IH (fun x => if x =? w then S (c x) else c x) (upd wg w g') g i).
      + f_equal. unfold turn. cbn [nth firstn count_occ]. destruct (Nat.eq_dec w (nth i l 0)) as [Ew|Ew].
        * rewrite <- Ew, Nat.eqb_refl. lia.
        * destruct (Nat.eqb_spec (nth i l 0) w); [congruence|reflexivity].
      + intros x. unfold upd. destruct (Nat.eqb_spec x w) as [->|Hx]; [|apply Hwg].
        rewrite after_S, <- Hwg, E. reflexivity.
      + cbn in Hi. lia.
  Qed.
  Lemma draws_turn m who g i : i < length who ->
    nth i (draws perm m who (fun _ => g)) [] = draw perm m (turn who i) g.
  Proof. intros Hi. rewrite (draws_nth m who (fun _ => 0) _ g i) by auto. reflexivity. Qed.
  Lemma draw_perm m t g : generator perm -> Permutation (draw perm m t g) (seq 0 m).
  Proof. intros HG. rewrite draw_after. apply HG. Qed.

  Lemma seeded_rows_eq (argpart : list V -> list nat -> list nat) metric kth se (D : arr2 V) g c : forall a,
    seeded_rows argpart perm metric kth se D (seq a c) (if se then after (ncol D) a g else g) =
    mapM (fun i => hub_row_nn argpart metric kth (hub_shuffle se (fun i => draw perm (ncol D) i g) i) (hub_row metric D i)) (seq a c).
  Proof.
    induction c as [|c IH]; intros a; [reflexivity|]. cbn [seq seeded_rows mapM]. unfold hub_shuffle at 1.
    specialize (IH (S a)). destruct se.
    - rewrite draw_after. rewrite after_S in IH. destruct (perm (ncol D) (after (ncol D) a g)) as [rp g'] eqn:E. cbn [fst snd] in *.
      now rewrite <- IH.
    - now rewrite <- IH.
  Qed.
End Draws.

(** ** with random_state=s and one process: row i is shuffled by the i-th
    permutation of the generator seeded with s, nothing else matters *)
Theorem C173_seeded :
  forall V (N : Num V) argpart G (perm : nat -> G -> list nat * G) seeded sparse (D : arr2 V) k metric se s entropy,
    hubness_seeded argpart perm seeded sparse D k metric se (Some s) entropy =
    hubness_serial argpart sparse D k metric se (fun i => draw perm (ncol D) i (seeded s)).
Proof.
  intros. unfold hubness_seeded, hubness_serial. destruct (check_valid_metric_parameter metric) as [u|e]; [|reflexivity]. cbn [bind].
  destruct (guard (hub_k k (ncol D) <? 0)%Z ValueError) as [u'|e]; [|reflexivity]. cbn [bind].
  destruct (prepare_shape sparse metric D) as (_ & Pc).
  pose proof (seeded_rows_eq perm argpart metric (hub_kth_ser metric (nrow D) (ncol D) (hub_k k (ncol D))) se (hub_prepare sparse metric D) (seeded s) (nrow D) 0) as H.
  cbn [after] in H. rewrite Pc in H. replace (if se then seeded s else seeded s) with (seeded s) in H by now destruct se.
  now rewrite H.
Qed.

(** ** with forked workers the permutation of a row depends only on how many rows
    its worker had taken before: rows at the same turn of different workers are
    shuffled alike *)
Theorem C173_turns :
  forall V (N : Num V) argpart G (perm : nat -> G -> list nat * G) g p who sparse (D : arr2 V) k metric se r,
    hubness_forked argpart perm g p who sparse D k metric se r <->
    length who = nrow D /\ (forall w, In w who -> w < p) /\
    exists rps, (forall i, i < nrow D -> rps i = draw perm (ncol D) (turn who i) g) /\
      hubness_parallel argpart sparse D k metric se rps false r.
Proof.
  intros. unfold hubness_forked. split; intros (L & W & H); (split; [exact L|]); (split; [exact W|]).
  - eexists. split; [|exact H]. intros i Hi. cbv beta. apply draws_turn. lia.
  - destruct H as (rps & H1 & H).
    assert (E : forall i, i < nrow D -> rps i = nth i (draws perm (ncol D) who (fun _ => g)) []).
    { intros i Hi. rewrite H1 by exact Hi. symmetry. apply draws_turn. lia. }
    assert (ES : forall i, i < nrow D -> hub_shuffle se rps i = hub_shuffle se (fun i => nth i (draws perm (ncol D) who (fun _ => g)) []) i).
    { intros i Hi. unfold hub_shuffle. destruct se; [now rewrite E|reflexivity]. }
    destruct H as [Hs|e Hs Hm|Hs Hm Hk|i e Hs Hm Hk Hi Hr|rows mm Dk Hs Hm Hk Hr Hp HD].
    + discriminate.
    + now apply hp_metric.
    + now apply hp_negk.
    + eapply hp_task_raise; eauto. now rewrite <- ES.
    + eapply hp_ok; eauto. rewrite <- Hr. apply mapM_ext. intros i Hi. apply in_seq in Hi. rewrite ES by lia. reflexivity.
Qed.

(** ** DEFECT: queries against other objects (n <> m): two queries with the same
    distances at the same turn get the same neighbours, ties included, whatever
    argpartition does with equal values *)
Theorem C173_same_neighbours :
  forall argpart, argpart_ok argpart ->
  forall G (perm : nat -> G -> list nat * G) g p who (D : arr2 f64) k metric se o i j,
    generator perm -> nrow D <> ncol D ->
    hubness_forked argpart perm g p who false D k metric se (Ok o) ->
    i < nrow D -> j < nrow D -> same_row D i j -> turn who i = turn who j ->
    nth i (out_Dk o) [] = nth j (out_Dk o) [].
Proof.
  intros argpart AP G perm g p who D k metric se o i j HG Hn H Hi Hj Hrow Ht.
  apply C173_turns in H as (L & _ & rps & Hrps & H).
  assert (W : rps_wf D rps). { intros x Hx. rewrite Hrps by exact Hx. now apply draw_perm. }
  apply (hubness_parallel_det f64_cmp argpart AP) in H; [|exact W]. unfold hubness_par_seq in H. symmetry in H.
  apply bind_ok_inv in H as (u & _ & H). apply bind_ok_inv in H as (u' & _ & H). apply bind_ok_inv in H as (Dk & HDk & H).
  injection H as <-. cbn [out_Dk]. unfold par_rows in HDk.
  pose proof (mapM_nth _ _ _ i 0 [] HDk) as Ei. pose proof (mapM_nth _ _ _ j 0 [] HDk) as Ej.
  rewrite seq_length in Ei, Ej. specialize (Ei Hi). specialize (Ej Hj). rewrite seq_nth in Ei, Ej by assumption. cbn [Nat.add] in Ei, Ej.
  assert (ES : hub_shuffle se rps i = hub_shuffle se rps j).
  { unfold hub_shuffle. destruct se; [|reflexivity]. rewrite !Hrps by assumption. now rewrite Ht. }
  assert (ER : hub_row metric (hub_prepare false metric D) i = hub_row metric (hub_prepare false metric D) j).
  { unfold hub_row, hub_prepare. destruct (Nat.eqb_spec (nrow D) (ncol D)) as [E|_]; [contradiction|].
    cbn [nrow ncol mask_value]. destruct (Nat.eqb_spec (nrow D) (ncol D)) as [E|_]; [contradiction|]. f_equal.
    assert (EL : rowl (mask_value D (fun x => negb (nisfin x)) (hub_dself metric)) i = rowl (mask_value D (fun x => negb (nisfin x)) (hub_dself metric)) j).
    { unfold rowl. apply map_ext_in. intros x Hx. apply in_seq in Hx. cbn [mask_value ncol at2] in *. now rewrite Hrow by lia. }
    now rewrite EL. }
  rewrite ES, ER in Ei. congruence.
Qed.

(** with as many workers as queries, if every worker takes one query and all
    distances of a query are the same for all queries (for example all equal):
    every query gets the same k neighbours; these occur n times each and all other
    objects never.  The shuffle is there to avoid exactly this. *)
Theorem C173_concentrated :
  forall argpart, argpart_ok argpart ->
  forall G (perm : nat -> G -> list nat * G) g p (D : arr2 f64) k metric se,
    generator perm -> nrow D <> ncol D -> valid_metric metric = true -> 0 < nrow D <= p -> k < ncol D ->
    (forall i j, i < nrow D -> j < nrow D -> same_row D i j) ->
    (exists r, hubness_forked argpart perm g p (seq 0 (nrow D)) false D (Z.of_nat k) metric se r) /\
    forall r, hubness_forked argpart perm g p (seq 0 (nrow D)) false D (Z.of_nat k) metric se r ->
      exists o nn, r = Ok o /\ length nn = k /\ NoDup nn /\ (forall x, In x nn -> x < ncol D) /\
        out_Dk o = repeat nn (nrow D) /\
        length (out_Nk o) = ncol D /\
        forall x, x < ncol D -> nth x (out_Nk o) 0 = if existsb (Nat.eqb x) nn then nrow D else 0.
Proof.
  intros argpart AP G perm g p D k metric se HG Hn Hv Hp Hk Hrow.
  assert (T0 : forall n i, i < n -> turn (seq 0 n) i = 0).
  { intros n i Hi. unfold turn. rewrite seq_nth by exact Hi. apply count_occ_not_In. intros C.
    assert (F : firstn i (seq 0 n) = seq 0 i).
    { replace n with (i + (n - i)) by lia. rewrite seq_app, firstn_app, seq_length, Nat.sub_diag, firstn_O, app_nil_r.
      rewrite <- (seq_length i 0) at 1. apply firstn_all. }
    rewrite F in C. apply in_seq in C. lia. }
  split.
  - destruct (hubness_parallel_exists argpart false D (Z.of_nat k) metric se
      (fun i => nth i (draws perm (ncol D) (seq 0 (nrow D)) (fun _ => g)) []) false) as (r & Hr).
    exists r. split; [apply seq_length|]. split; [|exact Hr]. intros w Hw. apply in_seq in Hw. lia.
  - intros r H. pose proof H as HF. apply C173_turns in H as (_ & _ & rps & Hrps & H).
    assert (W : rps_wf D rps). { intros x Hx. rewrite Hrps by exact Hx. now apply draw_perm. }
    assert (HP := H). apply (hubness_parallel_det f64_cmp argpart AP) in HP; [|exact W]. unfold hubness_par_seq in HP.
    rewrite (proj2 (check_metric_ok metric) Hv) in HP. cbn [bind] in HP. rewrite hub_k_of_nat in HP by lia.
    replace (Nat.min k (ncol D - 1)) with k in HP by lia.
    replace (Z.of_nat k <? 0)%Z with false in HP by (symmetry; apply Z.ltb_ge; lia). cbn [guard bind] in HP.
    destruct (par_rows_ok f64_cmp argpart AP false D k metric se rps Hv W Hk) as (rows & E & Lr & Hrows). rewrite E in HP. cbn [bind] in HP.
    subst r. eexists _, (nth 0 rows []). split; [reflexivity|]. cbn [out_Dk out_Nk].
    destruct (Hrows 0 ltac:(lia)) as [K2 K1 K3 _ _].
    assert (ALL : rows = repeat (nth 0 rows []) (nrow D)).
    { apply (nth_ext _ _ [] []); [now rewrite repeat_length|]. intros i Hi. assert (NR : forall (a : list nat) c x, x < c -> nth x (repeat a c) [] = a).
      { intros a c. induction c as [|c IH]; intros [|x] Hx; try lia; [reflexivity|]. cbn. apply IH. lia. }
      rewrite NR by lia. apply (C173_same_neighbours argpart AP G perm g p (seq 0 (nrow D)) D (Z.of_nat k) metric se _ i 0 HG Hn HF); auto; [lia|lia|apply Hrow; lia|].
      rewrite !T0; lia. }
    split; [exact K2|]. split; [exact K1|]. split; [exact K3|]. split; [exact ALL|].
    destruct (C01_occurrences_conserved argpart AP false D k metric se rps W _ (or_intror H)) as (C1 & _ & _ & C4).
    cbn [out_Nk out_Dk] in C1, C4. split; [exact C1|]. intros x Hx. rewrite C4 by exact Hx. clear - ALL. generalize dependent (nth 0 rows []). intros nn ->.
    generalize (nrow D). intros c. destruct (existsb (Nat.eqb x) nn) eqn:Ex.
    + induction c as [|c IH]; [reflexivity|]. cbn [repeat filter]. rewrite Ex. cbn [length]. now rewrite IH.
    + induction c as [|c IH]; [reflexivity|]. cbn [repeat filter]. rewrite Ex. exact IH.
Qed.

(** ** DEFECT: with forked workers the result depends on the schedule although the
    state of the generator is the same: three queries, two objects, all distances 1 *)
Definition swap_perm (m : nat) (g : bool) : list nat * bool :=
  (if g then rev (seq 0 m) else seq 0 m, negb g).
Lemma swap_generator : generator swap_perm.
Proof.
  intros m g. unfold swap_perm. cbn. destruct g; [apply Permutation_sym, Permutation_rev|apply Permutation_refl].
Qed.
Definition ones (n m : nat) : arr2 f64 := Arr2 n m (fun _ _ => n1).
Theorem C173_schedule_matters :
  exists o o', hubness_forked ref_argpart swap_perm false 3 [0; 1; 2] false (ones 3 2) 1 "distance" true (Ok o) /\
    hubness_forked ref_argpart swap_perm false 3 [0; 1; 0] false (ones 3 2) 1 "distance" true (Ok o') /\
    out_Nk o = [3; 0] /\ out_Nk o' = [2; 1].
Proof.
  assert (R : forall p who, length who = 3 -> (forall w, In w who -> w < p) ->
    hubness_forked ref_argpart swap_perm false p who false (ones 3 2) 1 "distance" true
      (hubness_serial ref_argpart false (ones 3 2) 1 "distance" true (fun i => nth i (draws swap_perm 2 who (fun _ => false)) []))).
  { intros p who L W. split; [exact L|]. split; [exact W|].
    apply (C04_parallel_equals_serial ref_argpart (ref_argpart_ok f64_cmp) false (ones 3 2) 1 "distance" true); [now right|].
    intros i Hi. rewrite draws_turn by (rewrite L; exact Hi). apply draw_perm, swap_generator. }
  eexists _, _. split; [|split; [|split]].
  - eapply eq_rect; [apply (R 3 [0; 1; 2]); [reflexivity|cbn; lia]|]. vm_compute. reflexivity.
  - eapply eq_rect; [apply (R 3 [0; 1; 0]); [reflexivity|cbn; lia]|]. vm_compute. reflexivity.
  - reflexivity.
  - reflexivity.
Qed.

(** ** The hypotheses can be met: one process with a seed shuffles the rows
    differently, so that the two objects share the occurrences *)
Example C173_case :
  (exists o, hubness_seeded ref_argpart swap_perm (fun s => Z.odd s) false (ones 4 2) 1 "distance" true (Some 6%Z) true = Ok o /\ out_Nk o = [2; 2]) /\
  (exists o, hubness_forked ref_argpart swap_perm false 4 (seq 0 4) false (ones 4 2) 1 "distance" true (Ok o) /\
     nth 0 (out_Nk o) 0 + nth 1 (out_Nk o) 0 = 4 /\ nth 0 (out_Nk o) 0 * nth 1 (out_Nk o) 0 = 0).
Proof.
  split; [eexists; split; [vm_compute; reflexivity|reflexivity]|].
  destruct (C173_concentrated ref_argpart (ref_argpart_ok f64_cmp) bool swap_perm false 4 (ones 4 2) 1 "distance" true swap_generator) as ((r & Hr) & A);
    [discriminate|reflexivity|cbn; lia|cbn; lia|intros i j _ _ x _; reflexivity|].
  cbn [nrow ones] in *. destruct (A r Hr) as (o & nn & -> & L & _ & B & _ & _ & C). exists o. split; [exact Hr|].
  rewrite (C 0) by (cbn; lia). rewrite (C 1) by (cbn; lia).
  destruct nn as [|x [|y l]]; try discriminate. specialize (B x (or_introl eq_refl)). cbn [ncol ones] in B.
  destruct x as [|[|x]]; [| |lia]; split; reflexivity.
Qed.

(** ** The generator of one process and the copies of the workers, advanced row by
    row, are what C148 and C149 state in closed form *)
(** the rows of each of [p] workers, in the order in which it takes them *)
Definition rows_of (p : nat) (who : list nat) : list (list nat) :=
  map (fun w => filter (fun i => nth i who 0 =? w) (seq 0 (length who))) (seq 0 p).

Lemma index_of_filter (f : nat -> bool) i n : forall a, a <= i < a + n ->
  M_Rng.index_of i (filter f (seq a n)) = if f i then Some (length (filter f (seq a (i - a)))) else None.
Proof.
  induction n as [|n IH]; intros a Hi; [lia|]. cbn [seq filter]. destruct (Nat.eq_dec a i) as [<-|Ha].
  - rewrite Nat.sub_diag. destruct (f a) eqn:E; cbn [M_Rng.index_of seq filter length].
    + now rewrite Nat.eqb_refl.
    + assert (X : forall l, ~ In a l -> M_Rng.index_of a l = None).
      { induction l as [|x l IHl]; intros H; [reflexivity|]. cbn [M_Rng.index_of]. destruct (Nat.eqb_spec x a) as [->|]; [exfalso; apply H; now left|].
        rewrite IHl; [reflexivity|]. intros C. apply H. now right. }
      apply X. intros C. apply filter_In in C as (C & _). apply in_seq in C. lia.
  - specialize (IH (S a) ltac:(lia)). replace (i - a) with (S (i - S a)) by lia. cbn [seq filter].
    destruct (f a); cbn [M_Rng.index_of length].
    + destruct (Nat.eqb_spec a i); [lia|]. rewrite IH. now destruct (f i).
    + exact IH.
Qed.
Lemma count_occ_filter (who : list nat) w i : i <= length who ->
  count_occ Nat.eq_dec (firstn i who) w = length (filter (fun j => nth j who 0 =? w) (seq 0 i)).
Proof.
  intros Hi. induction i as [|i IH]; [reflexivity|].
  rewrite seq_S, filter_app, app_length, <- IH by lia. cbn [filter length Nat.add].
  assert (E : firstn (S i) who = firstn i who ++ [nth i who 0]).
  { clear IH. revert i Hi. induction who as [|x l IHl]; intros i Hi; [cbn in Hi; lia|]. destruct i; [reflexivity|].
    cbn [firstn nth app]. f_equal. apply IHl. cbn in Hi. lia. }
  rewrite E, count_occ_app. cbn [count_occ]. destruct (Nat.eq_dec (nth i who 0) w) as [->|H];
    [rewrite Nat.eqb_refl; cbn; lia|]. apply Nat.eqb_neq in H. rewrite H. cbn. lia.
Qed.
Lemma position_turn p who i : i < length who -> nth i who 0 < p ->
  M_Rng.position i (rows_of p who) = turn who i.
Proof.
  intros Hi Hp. unfold rows_of, turn. rewrite count_occ_filter by lia.
  assert (A : forall c a, a <= nth i who 0 < a + c ->
    M_Rng.position i (map (fun w => filter (fun j => nth j who 0 =? w) (seq 0 (length who))) (seq a c)) =
    length (filter (fun j => nth j who 0 =? nth i who 0) (seq 0 i))).
  { induction c as [|c IH]; intros a Ha; [lia|]. cbn [seq map M_Rng.position].
    rewrite index_of_filter by lia. rewrite Nat.sub_0_r. destruct (Nat.eqb_spec (nth i who 0) a) as [E|E].
    - now rewrite <- E.
    - apply IH. lia. }
  apply A. lia.
Qed.

Theorem C173_refines :
  (forall V (N : Num V) argpart G (perm : nat -> G -> list nat * G) seeded sparse (D : arr2 V) k metric se rs g entropy,
    hubness_seeded argpart perm seeded sparse D k metric se rs entropy =
    fst (M_Rng.hubness_1 argpart G perm seeded sparse D k metric se rs (M_Rng.World G g entropy))) /\
  (forall V (N : Num V) argpart G (perm : nat -> G -> list nat * G) g e p who sparse (D : arr2 V) k metric se r,
    length who = nrow D -> (forall w, In w who -> w < p) ->
    hubness_forked argpart perm g p who sparse D k metric se r <->
    M_Rng.hubness_fork argpart G perm sparse D k metric se None (rows_of p who) (M_Rng.World G g e) r g).
Proof.
  assert (DR : forall G (perm : nat -> G -> list nat * G) m t g, M_Rng.draw G perm m t g = draw perm m t g).
  { intros G perm m t g. rewrite draw_after. reflexivity. }
  split; intros.
  - unfold M_Rng.hubness_1. cbn [fst M_Rng.entropy]. unfold hubness_seeded, hubness_serial.
    destruct (check_valid_metric_parameter metric) as [u|x]; [|reflexivity]. cbn [bind].
    destruct (guard (hub_k k (ncol D) <? 0)%Z ValueError) as [u'|x]; [|reflexivity]. cbn [bind].
    destruct (prepare_shape sparse metric D) as (_ & Pc).
    set (g0 := match rs with Some s => seeded s | None => entropy end).
    pose proof (seeded_rows_eq perm argpart metric (hub_kth_ser metric (nrow D) (ncol D) (hub_k k (ncol D))) se (hub_prepare sparse metric D) g0 (nrow D) 0) as H.
    cbn [after] in H. rewrite Pc in H. replace (if se then g0 else g0) with g0 in H by now destruct se. rewrite H.
    erewrite mapM_ext; [reflexivity|]. intros i _. cbv beta. unfold hub_shuffle. destruct se; [|reflexivity]. now rewrite DR.
  - assert (ES : forall i, i < nrow D ->
      nth i (draws perm (ncol D) who (fun _ => g)) [] = M_Rng.draw G perm (ncol D) (M_Rng.position i (rows_of p who)) g).
    { intros i Hi. rewrite DR, position_turn; [apply draws_turn; lia|lia|]. apply H0, nth_In. lia. }
    assert (EX : forall f h : nat -> list nat, (forall i, i < nrow D -> f i = h i) ->
      hubness_parallel argpart sparse D k metric se f false r -> hubness_parallel argpart sparse D k metric se h false r).
    { intros f h E Q.
      assert (E' : forall i, i < nrow D -> hub_shuffle se f i = hub_shuffle se h i).
      { intros i Hi. unfold hub_shuffle. destruct se; [now rewrite E|reflexivity]. }
      destruct Q as [Hs|x Hs Hm|Hs Hm Hk|i x Hs Hm Hk Hi Hr|rows mm Dk Hs Hm Hk Hr Hp HD].
      + discriminate.
      + now apply hp_metric.
      + now apply hp_negk.
      + eapply hp_task_raise; eauto. now rewrite <- E'.
      + eapply hp_ok; eauto. rewrite <- Hr. apply mapM_ext. intros i Hi. apply in_seq in Hi. rewrite E' by lia. reflexivity. }
    unfold hubness_forked, M_Rng.hubness_fork. cbn [M_Rng.global]. split.
    + intros (_ & _ & Q). split; [|reflexivity]. revert Q. apply EX. exact ES.
    + intros (Q & _). split; [exact H|]. split; [exact H0|]. revert Q. apply EX. intros i Hi. symmetry. now apply ES.
Qed.

Print Assumptions C173_seeded.
Print Assumptions C173_turns.
Print Assumptions C173_same_neighbours.
Print Assumptions C173_concentrated.
Print Assumptions C173_schedule_matters.
Print Assumptions C173_refines.
