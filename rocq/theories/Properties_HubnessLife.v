(** C156: the attributes of a Hubness object after several calls of fit_transform,
    and what its generator of random numbers does (hubness.py:444-734). *)
From Coq Require Import String.
From Coq Require Import Reals ZArith List Arith Lia Bool Permutation.
From Verif Require Import Py Num NumT Arr Sort Conc M_Hubness M_KNN M_HubnessClass M_Rng M_HubnessLife.
From Verif Require Import Properties_Rng.
Import ListNotations.
Local Open Scope nat_scope.
Local Open Scope py_scope.

Section Statements.
  Context {V : Type} {N : Num V}.
  Variable rdist : nat -> (nat -> V) -> (nat -> V) -> V.
  Variables (vsum : list V -> V) (vpow : V -> V -> V).
  Variables (skew trunc : list nat -> V).
  Variable argpart : list V -> list nat -> list nat.
  Variable G : Type.
  Variable perm : nat -> G -> list nat * G.
  Notation hstep := (hstep rdist vsum vpow skew trunc argpart G perm).
  Notation hrun := (hrun rdist vsum vpow skew trunc argpart G perm).
  Notation neighbours := (neighbours rdist argpart).
  Notation fit_transform := (fit_transform rdist vsum vpow argpart).
  Notation hobj := (@hobj V G).
  Notation hcall := (@hcall V G).
  Notation hpar := (@hpar V).

  (** a call of fit_transform as in C43-C48 and C65: what the result would be on an
      object of which nothing but the parameters and the generators are known *)
  Definition fit_of (p : hpar) (own : option G) (g : G) (X : @hub_input V) (Y : option (arr2 V)) (hs : bool) (r : result hub_fit) : Prop :=
    fit_transform (q_metric p) (q_k p) (q_size p) (q_bs p) (q_jobs p)
      (if q_shuffle p then Some (class_perms G perm X own g) else None) hs X Y r.
  (** the attributes other than k_neighbors_ and k_occurrence_ are those of the result [h] *)
  Definition measures_are (o : hobj) (h : @hub_fit V) : Prop :=
    h_dist _ o = Some (skew (f_occ h), trunc (f_occ h), f_gini h, f_hood h, f_atkinson h) /\
    h_hub _ o = Some (f_antihubs h, f_antihub_occ h, f_hubs h, f_hub_occ h, f_groupie h).
  (** there is no object that could be a neighbour *)
  Definition nothing_indexed (metric : string) (X : @hub_input V) (Y : option (arr2 V)) : Prop :=
    match X with
    | InDense A => (if String.eqb metric "precomputed" then ncol A else nrow (match Y with Some Y => Y | None => A end)) = 0
    | InSparse m _ => m = 0
    end.
  (** a step that is not a successful fit, nor a fit to data without indexed objects *)
  Definition keeps_measures (c : hcall * hpar * result unit) : Prop :=
    match c with
    | (HFit _ X Y _, p, r) => (exists e, r = Raise e) /\ ~ nothing_indexed (q_metric p) X Y
    | _ => True
    end.
  (** the same, or a fit with return_k_neighbors=False *)
  Definition keeps_neighbours (c : hcall * hpar * result unit) : Prop :=
    match c with
    | (HFit _ X Y _, p, r) => q_nn p = false \/ (exists e, r = Raise e) /\ ~ nothing_indexed (q_metric p) X Y
    | _ => True
    end.

  (** *** the model of one call agrees with that of M_HubnessClass.v *)
  Lemma neighbours_fit_rps p rps X Y hs r :
    fit_transform (q_metric p) (q_k p) (q_size p) (q_bs p) (q_jobs p) rps hs X Y r <->
    exists r0, neighbours p rps hs X Y r0 /\
      r = (let* t := r0 in measures vsum vpow (q_k p) (q_size p) (fst (fst t)) (snd (fst t)) (snd t)).
  Proof.
    split.
    - intros H. inversion H as [X0 Y0 M|D M|m rows M|X0 Y0 M E|X0 Y0 r0 M E K]; subst.
      + eexists. split; [apply nb_pre_y; exact M|reflexivity].
      + eexists. split; [apply nb_pre_dense; exact M|]. cbv zeta. destruct (k_neighbors_precomputed _ _ _ _ _ _); reflexivity.
      + eexists. split; [apply nb_pre_sparse; exact M|]. destruct (k_neighbors_sparse _ _ _ _); reflexivity.
      + eexists. split; [apply nb_features; [exact M|exact E]|reflexivity].
      + eexists. split; [apply nb_vec; [exact M|exact E|exact K]|]. destruct r0; reflexivity.
    - intros (r0 & H & ->). destruct H as [X0 Y0 M|D M|m rows M|X0 Y0 M E|X0 Y0 r0 M E K].
      + now apply ft_pre_y.
      + assert (Q := ft_pre_dense rdist vsum vpow argpart (q_metric p) (q_k p) (q_size p) (q_bs p) (q_jobs p) rps hs D M).
        cbv zeta in *. destruct (k_neighbors_precomputed _ _ _ _ _ _); exact Q.
      + assert (Q := ft_pre_sparse rdist vsum vpow argpart (q_metric p) (q_k p) (q_size p) (q_bs p) (q_jobs p) rps hs m rows M).
        cbv zeta in *. destruct (k_neighbors_sparse _ _ _ _); exact Q.
      + now apply ft_features.
      + assert (Q := ft_vec rdist vsum vpow argpart (q_metric p) (q_k p) (q_size p) (q_bs p) (q_jobs p) rps hs X0 Y0 r0 M E K).
        destruct r0; exact Q.
  Qed.

  Lemma bincount_len l n : n <= length (bincount l n).
  Proof. unfold bincount. rewrite map_length, seq_length. lia. Qed.
  Lemma bincount_app_len l l' n : length (bincount l n) <= length (bincount (l ++ l') n).
  Proof.
    unfold bincount. rewrite !map_length, !seq_length. enough (fold_right (fun x a => Nat.max (S x) a) 0 l <= fold_right (fun x a => Nat.max (S x) a) 0 (l ++ l')) by lia.
    induction l as [|x l IH]; cbn [fold_right app]; lia.
  Qed.
  Lemma neighbours_size p rps hs X Y n m nn : neighbours p rps hs X Y (Ok (n, m, nn)) -> m = 0 -> nothing_indexed (q_metric p) X Y.
  Proof.
    intros H ->. inversion H as [|D M E|m0 rows M E|X0 Y0 M E|X0 Y0 r0 M E K E2]; subst; cbn.
    - rewrite M. cbn. cbv zeta in *. destruct (k_neighbors_precomputed _ _ _ _ _ _); cbn in *; congruence.
    - destruct (k_neighbors_sparse _ _ _ _); cbn in *; congruence.
    - destruct (String.eqb_spec (q_metric p) "precomputed") as [C|_]; [congruence|]. destruct r0; cbn in *; [|congruence].
      destruct Y; congruence.
  Qed.
  (** a successful step *)
  Lemma assign_ok o n m nn : snd (assign vsum vpow skew trunc G o n m nn) = Ok tt ->
    exists h, measures vsum vpow (q_k (h_par _ o)) (q_size (h_par _ o)) n m nn = Ok h /\
      measures_are (fst (assign vsum vpow skew trunc G o n m nn)) h /\ f_nn h = nn /\
      h_nn _ (fst (assign vsum vpow skew trunc G o n m nn)) = (if q_nn (h_par _ o) then Some (f_nn h) else h_nn _ o) /\
      h_occ _ (fst (assign vsum vpow skew trunc G o n m nn)) = (if q_occ (h_par _ o) then Some (f_occ h) else h_occ _ o) /\
      h_par _ (fst (assign vsum vpow skew trunc G o n m nn)) = h_par _ o.
  Proof.
    unfold assign, measures. cbv zeta. destruct (length (bincount (concat nn) m) =? 0); cbn [fst snd]; [discriminate|]. intros _.
    cbn [guard bind]. eexists. split; [reflexivity|]. unfold measures_are. cbn. auto 8.
  Qed.
  Lemma assign_fail o n m nn e : snd (assign vsum vpow skew trunc G o n m nn) = Raise e -> m = 0 /\ e = ZeroDivisionError.
  Proof.
    unfold assign. cbv zeta. destruct (Nat.eqb_spec (length (bincount (concat nn) m)) 0) as [E|E]; cbn [fst snd]; [|discriminate].
    intros H. split; [|congruence]. pose proof (bincount_len (concat nn) m). lia.
  Qed.
  Lemma assign_own o s n m nn : snd (assign vsum vpow skew trunc G (with_own G o s) n m nn) = snd (assign vsum vpow skew trunc G o n m nn).
  Proof. unfold assign. cbv zeta. destruct (_ =? 0); reflexivity. Qed.

  Lemma step_measures st c st' r : hstep st c st' r -> keeps_measures (c, h_par _ (snd st), r) ->
    h_dist _ (snd st') = h_dist _ (snd st) /\ h_hub _ (snd st') = h_hub _ (snd st).
  Proof.
    intros H K. destruct H as [g o X Y hs e j H|g o X Y hs n m nn H| |]; cbn; auto.
    exfalso. cbn in K. destruct K as ((e & E) & K). apply assign_fail in E as (-> & _). apply K. eapply neighbours_size; [exact H|reflexivity].
  Qed.
  Lemma step_neighbours st c st' r : hstep st c st' r -> keeps_neighbours (c, h_par _ (snd st), r) -> h_nn _ (snd st') = h_nn _ (snd st).
  Proof.
    intros H K. destruct H as [g o X Y hs e j H|g o X Y hs n m nn H| |]; cbn; auto.
    cbn in K. destruct K as [K|((e & E) & K)].
    - unfold assign. cbv zeta. cbn. rewrite K. destruct (_ =? 0); reflexivity.
    - exfalso. apply assign_fail in E as (-> & _). apply K. eapply neighbours_size; [exact H|reflexivity].
  Qed.
  Lemma run_measures st l st' : hrun st l st' -> Forall keeps_measures l ->
    h_dist _ (snd st') = h_dist _ (snd st) /\ h_hub _ (snd st') = h_hub _ (snd st).
  Proof.
    induction 1 as [|l c r st1 st2 H IH S]; intros F; [auto|]. apply Forall_app in F as (F1 & F2). inversion F2; subst.
    destruct (IH F1) as (A & B). destruct (step_measures _ _ _ _ S H2) as (A' & B'). split; congruence.
  Qed.
  Lemma run_neighbours st l st' : hrun st l st' -> Forall keeps_neighbours l -> h_nn _ (snd st') = h_nn _ (snd st).
  Proof.
    induction 1 as [|l c r st1 st2 H IH S]; intros F; [auto|]. apply Forall_app in F as (F1 & F2). inversion F2; subst.
    rewrite (step_neighbours _ _ _ _ S H2). auto.
  Qed.

  Lemma fit_ok_inv g o X Y hs st1 : hstep (g, o) (HFit _ X Y hs) st1 (Ok tt) ->
    exists n m nn h, (neighbours (h_par _ o) (perms_of G perm o X g) hs X Y (Ok (n, m, nn)) /\ length (bincount (concat nn) m) <> 0) /\
      fit_of (h_par _ o) (h_own _ o) g X Y hs (Ok h) /\ measures_are (snd st1) h /\ f_nn h = nn /\
      h_nn _ (snd st1) = (if q_nn (h_par _ o) then Some (f_nn h) else h_nn _ o) /\
      h_par _ (snd st1) = h_par _ o /\
      (fst st1, h_own _ (snd st1)) = advanced G perm X (draw_lens (h_par _ o) X) g (h_own _ o).
  Proof.
    intros S. remember (g, o) as st eqn:Es. remember (HFit G X Y hs) as c eqn:Ec. remember (Ok tt) as r eqn:Er.
    destruct S as [|g1 o1 X1 Y1 hs1 n m nn H| |]; try discriminate.
    apply pair_equal_spec in Es as (-> & ->). injection Ec as -> -> ->.
    rewrite <- assign_own with (s := snd (advanced G perm X (draw_lens (h_par _ o) X) g (h_own _ o))) in Er.
    destruct (assign_ok _ _ _ _ Er) as (h & M & MA & F & M3 & _ & M5). exists n, m, nn, h. cbn [fst snd].
    split; [split; [exact H|]|split].
    { unfold assign in Er. cbv zeta in Er. destruct (Nat.eqb_spec (length (bincount (concat nn) m)) 0); [discriminate Er|assumption]. }
    { apply neighbours_fit_rps. eexists. split; [exact H|]. cbn. symmetry. exact M. }
    split; [exact MA|]. split; [exact F|]. split; [exact M3|]. split; [exact M5|].
    unfold assign. cbv zeta. destruct (_ =? 0); cbn; now destruct (advanced _ _ _ _ _ _).
  Qed.

  (** C156: the measures are those of the last successful fit, whatever happened to the
      object before, and whatever changes of parameters and failed fits come after *)
  Theorem C156_measures :
    forall g o X Y hs st1, hstep (g, o) (HFit _ X Y hs) st1 (Ok tt) ->
    forall l g2 o2, hrun st1 l (g2, o2) -> Forall keeps_measures l ->
    exists h, fit_of (h_par _ o) (h_own _ o) g X Y hs (Ok h) /\ measures_are o2 h.
  Proof.
    intros g o X Y hs st1 S l g2 o2 R F. destruct (run_measures _ _ _ R F) as (A & B). cbn in A, B.
    destruct (fit_ok_inv _ _ _ _ _ _ S) as (n & m & nn & h & _ & FT & (M1 & M2) & _). exists h. split; [exact FT|].
    unfold measures_are. rewrite A, B. auto.
  Qed.

  (** C156, DEFECT: k_neighbors_ is that of the last successful fit with
      return_k_neighbors=True, also if other data have been fitted since *)
  Theorem C156_neighbours :
    forall g o X Y hs st1, hstep (g, o) (HFit _ X Y hs) st1 (Ok tt) -> q_nn (h_par _ o) = true ->
    forall l g2 o2, hrun st1 l (g2, o2) -> Forall keeps_neighbours l ->
    exists h, fit_of (h_par _ o) (h_own _ o) g X Y hs (Ok h) /\ h_nn _ o2 = Some (f_nn h).
  Proof.
    intros g o X Y hs st1 S Q l g2 o2 R F. pose proof (run_neighbours _ _ _ R F) as A. cbn in A.
    destruct (fit_ok_inv _ _ _ _ _ _ S) as (n & m & nn & h & _ & FT & _ & _ & M3 & _). exists h. split; [exact FT|].
    rewrite A, M3, Q. reflexivity.
  Qed.

  (** C156: fit_transform of an empty matrix raises ZeroDivisionError and overwrites
      some attributes, but not the others *)
  Theorem C156_empty_matrix :
    forall g o D hs, q_metric (h_par _ o) = "precomputed"%string -> nrow D = 0 -> ncol D = 0 ->
    forall g' o' r, hstep (g, o) (HFit _ (InDense D) None hs) (g', o') r ->
      r = Raise ZeroDivisionError /\ h_hub _ o' = h_hub _ o /\
      (exists a b c, h_dist _ o' = Some (skew [], trunc [], a, b, c)) /\
      (q_nn (h_par _ o) = true -> h_nn _ o' = Some []).
  Proof.
    intros g o D hs M R C g' o' r H.
    assert (NB : forall rps r0, neighbours (h_par _ o) rps hs (InDense D) None r0 -> r0 = Ok (0, 0, [])).
    { intros rps r0 K. inversion K; subst; try congruence. cbv zeta. unfold k_neighbors_precomputed. rewrite R, C. reflexivity. }
    inversion H as [g1 o1 X1 Y1 hs1 e j H1|g1 o1 X1 Y1 hs1 n m nn H1| |]; subst.
    - apply NB in H1. discriminate.
    - apply NB in H1. injection H1 as -> -> ->. unfold assign. cbn. repeat split; eauto. intros ->. reflexivity.
  Qed.

  (** *** the generator of the object *)
  Lemma sparse_draws_app l l' g : sparse_draws G perm (l ++ l') g = sparse_draws G perm l g ++ sparse_draws G perm l' (advance G perm l g).
  Proof. revert g. induction l as [|m l IH]; intros g; [reflexivity|]. cbn. now rewrite IH. Qed.
  Lemma advance_app l l' g : advance G perm (l ++ l') g = advance G perm l' (advance G perm l g).
  Proof. unfold advance. apply fold_left_app. Qed.
  Lemma sparse_draws_len l g : length (sparse_draws G perm l g) = length l.
  Proof. revert g. induction l as [|m l IH]; intros g; cbn; auto. Qed.
  Lemma mapM_app_ok {A B C} (f : A -> result C) (f1 : B -> result C) (u : B -> A) l1 l2 r1 r2 :
    (forall b, In b l2 -> f (u b) = f1 b) ->
    mapM f l1 = Ok r1 -> mapM f1 l2 = Ok r2 -> mapM f (l1 ++ map u l2) = Ok (r1 ++ r2).
  Proof.
    intros E H1 H2. revert r1 H1. induction l1 as [|a l1 IH]; intros r1 H1; cbn in H1 |- *.
    - injection H1 as <-. cbn. revert r2 H2. induction l2 as [|b l2 IH2]; intros r2 H2; cbn in H2 |- *; [exact H2|].
      rewrite (E b) by now left. destruct (f1 b) as [c|]; cbn in *; [|discriminate].
      destruct (mapM f1 l2) as [r|] eqn:M; cbn in H2; [|discriminate]. rewrite (IH2 ltac:(intros; apply E; now right) r eq_refl). exact H2.
    - destruct (f a) as [c|]; cbn in *; [|discriminate]. destruct (mapM f l1) as [r|] eqn:M; cbn in H1; [|discriminate].
      injection H1 as <-. rewrite (IH r eq_refl). reflexivity.
  Qed.

  Lemma nb_sparse_inv p rps hs m rows r : q_metric p = "precomputed"%string -> neighbours p rps hs (InSparse m rows) None r ->
    r = (let* nn := k_neighbors_sparse argpart rows (q_k p) rps in Ok (length rows, m, nn)).
  Proof.
    intros M H. remember (InSparse m rows) as X eqn:EX. remember None as Y eqn:EY.
    destruct H; try discriminate. injection EX as -> ->. reflexivity.
  Qed.
  Lemma nb_dense_inv p rps hs D r : q_metric p = "precomputed"%string -> neighbours p rps hs (InDense D) None r ->
    r = (let s := if (nrow D =? ncol D) && hs then 1 else 0 in
         let* nn := k_neighbors_precomputed argpart D (zarange 0 (Z.of_nat (s + q_k p))) s (s + q_k p) rps in
         Ok (nrow D, ncol D, nn)).
  Proof.
    intros M H. remember (InDense D) as X eqn:EX. remember (@None (arr2 V)) as Y eqn:EY.
    destruct H; try discriminate; [|congruence]. injection EX as ->. reflexivity.
  Qed.
  Lemma kns_some (rows : list (list (nat * V))) k f : k_neighbors_sparse argpart rows k (Some f) =
    match rows with [] => Raise IndexError | _ => mapM (fun i => sparse_row argpart k (Some (f i)) (nth i rows [])) (seq 0 (length rows)) end.
  Proof. unfold k_neighbors_sparse. destruct rows; [reflexivity|]. destruct (forallb _ _); reflexivity. Qed.

  (** C156: an object with a generator of its own (random_state a number) that is
      fitted to one sparse distance matrix and then to another one finds the
      same neighbours as if it had been fitted to the two stacked upon each other,
      whatever else uses the global generator meanwhile.  So the second fit
      depends on the first. *)
  Theorem C156_generator_goes_on :
    forall g o s m A B hs st1 l g2 o2 hs' st3 a b,
      h_own _ o = Some s -> q_metric (h_par _ o) = "precomputed"%string -> q_shuffle (h_par _ o) = true -> q_nn (h_par _ o) = true ->
      hstep (g, o) (HFit _ (InSparse m A) None hs) st1 (Ok tt) -> h_nn _ (snd st1) = Some a ->
      hrun st1 l (g2, o2) -> Forall (fun c => exists g', fst (fst c) = HGlobal _ g') l ->
      hstep (g2, o2) (HFit _ (InSparse m B) None hs') st3 (Ok tt) -> h_nn _ (snd st3) = Some b ->
      exists st4, hstep (g, o) (HFit _ (InSparse m (A ++ B)) None hs) st4 (Ok tt) /\ h_nn _ (snd st4) = Some (a ++ b) /\
        h_own _ (snd st4) = h_own _ (snd st3).
  Proof.
    intros g o s m A B hs st1 l g2 o2 hs' st3 a b Ow M Sh Q S1 Na R F S3 Nb.
    destruct (fit_ok_inv _ _ _ _ _ _ S1) as (n1 & m1 & nn1 & h1 & (H1 & LE) & _ & _ & F1 & N1 & P1 & G1).
    rewrite Q, F1 in N1. assert (nn1 = a) by congruence. subst nn1.
    assert (O2 : o2 = snd st1).
    { clear - R F. remember (g2, o2) as st2 eqn:E. revert g2 o2 E. induction R as [|l c r st st' R IH S]; intros g2 o2 E.
      - now rewrite E.
      - apply Forall_app in F as (Fa & Fb). inversion Fb as [|x y (g' & Hg) _]; subst. cbn in Hg. subst c.
        inversion S; subst. eapply (IH Fa); reflexivity. }
    destruct (fit_ok_inv _ _ _ _ _ _ S3) as (n3 & m3 & nn3 & h3 & (H3 & _) & _ & _ & F3 & N3 & P3 & G3).
    rewrite O2, P1 in *. rewrite Q, F3 in N3. assert (nn3 = b) by congruence. subst nn3.
    assert (LA : draw_lens (h_par _ o) (InSparse m A) = map (@length _) A) by (unfold draw_lens; now rewrite Sh, M).
    assert (LB : draw_lens (h_par _ o) (InSparse m B) = map (@length _) B) by (unfold draw_lens; now rewrite Sh, M).
    assert (LAB : draw_lens (h_par _ o) (InSparse m (A ++ B)) = map (@length _) (A ++ B)) by (unfold draw_lens; now rewrite Sh, M).
    rewrite LA, Ow in G1. cbn in G1. apply pair_equal_spec in G1 as (_ & G1).
    rewrite LB, G1 in G3. cbn in G3. apply pair_equal_spec in G3 as (_ & G3).
    unfold perms_of in H1, H3. rewrite P1, Sh, G1 in H3. rewrite Sh, Ow in H1.
    set (f1 := class_perms G perm (InSparse m A) (Some s) g) in *.
    set (f3 := class_perms G perm (InSparse m B) (Some (advance G perm (map (length (A:=nat * V)) A) s)) g2) in *.
    set (f4 := class_perms G perm (InSparse m (A ++ B)) (Some s) g).
    pose proof (nb_sparse_inv _ _ _ _ _ _ M H1) as E1. pose proof (nb_sparse_inv _ _ _ _ _ _ M H3) as E3.
    destruct (k_neighbors_sparse argpart A (q_k (h_par _ o)) (Some f1)) as [a'|] eqn:KA; cbn [bind] in E1; [|discriminate].
    destruct (k_neighbors_sparse argpart B (q_k (h_par _ o)) (Some f3)) as [b'|] eqn:KB; cbn [bind] in E3; [|discriminate].
    assert (a' = a) by congruence. assert (b' = b) by congruence. assert (n1 = length A) by congruence. assert (m1 = m) by congruence. subst a' b' n1 m1.
    rewrite kns_some in KA, KB.
    assert (KAB : k_neighbors_sparse argpart (A ++ B) (q_k (h_par _ o)) (Some f4) = Ok (a ++ b)).
    { rewrite kns_some. destruct A as [|r0 A']; [discriminate|]. set (A := r0 :: A') in *.
      change (match A ++ B with [] => Raise IndexError | _ => mapM (fun i => sparse_row argpart (q_k (h_par G o)) (Some (f4 i)) (nth i (A ++ B) [])) (seq 0 (length (A ++ B))) end)
        with (mapM (fun i => sparse_row argpart (q_k (h_par G o)) (Some (f4 i)) (nth i (A ++ B) [])) (seq 0 (length (A ++ B)))).
      rewrite app_length, seq_app. cbn [Nat.add].
      assert (SQ : seq (length A) (length B) = map (fun j => length A + j) (seq 0 (length B))).
      { generalize (length B) as nb. intros nb. apply (nth_ext _ _ 0 0); [now rewrite map_length, !seq_length|].
        intros i Hi. rewrite seq_length in Hi. rewrite seq_nth by exact Hi.
        rewrite (nth_indep _ 0 (length A + 0)) by (now rewrite map_length, seq_length).
        rewrite map_nth with (f := fun j => length A + j), seq_nth by exact Hi. lia. }
      rewrite SQ.
      apply mapM_app_ok with (f1 := fun i => sparse_row argpart (q_k (h_par G o)) (Some (f3 i)) (nth i B [])).
      - intros j Hj. apply in_seq in Hj. rewrite app_nth2 by lia. replace (length A + j - length A) with j by lia.
        replace (f4 (length A + j)) with (f3 j); [reflexivity|]. unfold f4, f3, class_perms. rewrite map_app, sparse_draws_app.
        rewrite app_nth2; rewrite sparse_draws_len, map_length; [|lia]. f_equal. lia.
      - rewrite <- KA. apply mapM_ext. intros i Hi. apply in_seq in Hi. rewrite app_nth1 by lia.
        replace (f4 i) with (f1 i); [reflexivity|]. unfold f4, f1, class_perms. rewrite map_app, sparse_draws_app.
        rewrite app_nth1; [reflexivity|]. rewrite sparse_draws_len, map_length. lia.
      - destruct B; [discriminate|exact KB]. }
    assert (NB := nb_pre_sparse rdist argpart (h_par _ o) (Some f4) hs m (A ++ B) M). rewrite KAB in NB. cbn [bind] in NB.
    assert (PO : perms_of G perm o (InSparse m (A ++ B)) g = Some f4) by (unfold perms_of; now rewrite Sh, Ow). rewrite <- PO in NB.
    assert (S4 := hs_done rdist vsum vpow skew trunc argpart G perm g o (InSparse m (A ++ B)) None hs _ _ _ NB).
    assert (OK4 : snd (assign vsum vpow skew trunc G o (length (A ++ B)) m (a ++ b)) = Ok tt).
    { unfold assign. cbv zeta. destruct (Nat.eqb_spec (length (bincount (concat (a ++ b)) m)) 0) as [Z0|_]; [|reflexivity].
      rewrite concat_app in Z0. pose proof (bincount_app_len (concat a) (concat b) m). match goal with E : f_nn h1 = a |- _ => rewrite E in LE end. lia. }
    rewrite OK4 in S4. eexists. split; [exact S4|].
    unfold assign. cbv zeta. destruct (_ =? 0); cbn [fst snd h_nn h_own h_par with_own]; rewrite Q; (split; [reflexivity|]);
      rewrite Ow, LAB; cbn [advanced snd]; rewrite G3, map_app, advance_app; reflexivity.
  Qed.
End Statements.

(** *** concrete cases *)
Notation fstep := (hstep (V := f64) (fun _ _ _ => n0) (fun _ => n0) (fun x _ => x) (fun _ => n0) (fun _ => n0) ref_argpart bool).
Notation frun := (hrun (V := f64) (fun _ _ _ => n0) (fun _ => n0) (fun x _ => x) (fun _ => n0) (fun _ => n0) ref_argpart bool).

(** a fit to precomputed distances whose neighbours have been computed *)
Lemma fit_dense perm (p : @hpar f64) own g D hs s nn (o : @hobj f64 bool) : h_par _ o = p -> h_own _ o = own ->
  q_metric p = "precomputed"%string -> q_shuffle p = false ->
  s = (if (nrow D =? ncol D) && hs then 1 else 0) -> 0 < ncol D ->
  k_neighbors_precomputed ref_argpart D (zarange 0 (Z.of_nat (s + q_k p))) s (s + q_k p) None = Ok nn ->
  exists o', fstep perm (g, o) (HFit _ (InDense D) None hs) (g, o') (Ok tt) /\ h_par _ o' = p /\
    h_nn _ o' = (if q_nn p then Some nn else h_nn _ o).
Proof.
  intros Ep Eo M Sh Es C K.
  assert (NB := nb_pre_dense (fun _ _ _ => n0) ref_argpart p None hs D M). cbv zeta in NB. rewrite <- Es in NB. rewrite K in NB. cbn [bind] in NB.
  assert (PO : perms_of bool perm o (InDense D) g = None) by (unfold perms_of; now rewrite Ep, Sh). rewrite <- PO in NB. rewrite <- Ep in NB.
  assert (S := hs_done (fun _ _ _ => n0) (fun _ => n0) (fun x _ => x) (fun _ => n0) (fun _ => n0) ref_argpart bool perm g o (InDense D) None hs _ _ _ NB).
  assert (DL : draw_lens (h_par _ o) (InDense D) = []) by (unfold draw_lens; now rewrite Ep, Sh). rewrite DL in S. cbn [advanced advance fold_left fst snd] in S.
  revert S. unfold assign. cbv zeta. destruct (Nat.eqb_spec (length (bincount (concat nn) (ncol D))) 0) as [Z|_].
  { pose proof (bincount_len (concat nn) (ncol D)). lia. }
  cbn [fst snd]. intros S. eexists. split; [exact S|]. cbn. rewrite Ep. auto.
Qed.

Definition dist2 : arr2 f64 := Arr2 2 2 (fun i j => if i =? j then n0 else n1).
Definition dist3 : arr2 f64 := Arr2 3 3 (fun i j => if i =? j then n0 else if j =? 2 then n1 else nofZ 2).
Definition par_nn (b : bool) : @hpar f64 := HPar "precomputed" 1 n1 64 1 false b b.

(** An object fitted to two objects with return_k_neighbors=True, then to three objects
    after that has been set to False: the measures are those of the second fit, and
    k_neighbors_ lists the neighbours of two objects. *)
Theorem C156_stale_witness : forall perm g own,
  exists st1 o2, let o := HObj bool (par_nn true) own None None None None in
    fstep perm (g, o) (HFit _ (InDense dist2) None true) st1 (Ok tt) /\
    frun perm st1 [(HSet _ (par_nn false), par_nn true, Ok tt); (HFit _ (InDense dist3) None true, par_nn false, Ok tt)] (g, o2) /\
    h_nn _ o2 = Some [[1]; [0]] /\
    exists h, f_nn h = [[2]; [2]; [0]] /\ measures_are (fun _ => n0) (fun _ => n0) bool o2 h.
Proof.
  intros perm g own. set (o := HObj bool (par_nn true) own None None None None).
  destruct (fit_dense perm (par_nn true) own g dist2 true 1 [[1]; [0]] o) as (o1 & S1 & P1 & N1); [reflexivity|reflexivity|reflexivity|reflexivity|reflexivity|cbn; lia|vm_compute; reflexivity|].
  set (o1' := HObj bool (par_nn false) (h_own _ o1) (h_nn _ o1) (h_occ _ o1) (h_dist _ o1) (h_hub _ o1)).
  destruct (fit_dense perm (par_nn false) (h_own _ o1) g dist3 true 1 [[2]; [2]; [0]] o1') as (o2 & S2 & P2 & N2); [reflexivity|reflexivity|reflexivity|reflexivity|reflexivity|cbn; lia|vm_compute; reflexivity|].
  exists (g, o1), o2. split; [exact S1|]. split.
  { rewrite <- P1.
    assert (R0 := hr_snoc (fun _ _ _ => n0) (fun _ => n0) (fun x _ => x) (fun _ => n0) (fun _ => n0) ref_argpart bool perm (g, o1) [] (HSet _ (par_nn false)) (Ok tt) (g, o1) (g, o1')).
    cbn [app snd] in R0. change (par_nn false) with (h_par _ (snd (g, o1'))) at 2.
    apply (hr_snoc (fun _ _ _ => n0) (fun _ => n0) (fun x _ => x) (fun _ => n0) (fun _ => n0) ref_argpart bool perm (g, o1) [(HSet _ (par_nn false), h_par bool o1, Ok tt)] (HFit _ (InDense dist3) None true) (Ok tt) (g, o1') (g, o2)).
    - apply R0; [apply hr_nil|]. apply hs_set.
    - exact S2. }
  split; [rewrite N2; cbn; rewrite N1; reflexivity|].
  destruct (fit_ok_inv _ _ _ _ _ _ _ _ _ _ _ _ _ _ S2) as (n & m & nn & h & (NB & _) & _ & MA & Fn & _).
  exists h. split; [|exact MA]. rewrite Fn.
  apply nb_dense_inv in NB; [|reflexivity]. cbv zeta in NB. change (perms_of bool perm o1' (InDense dist3) g) with (@None (nat -> list nat)) in NB.
  assert (K : k_neighbors_precomputed ref_argpart dist3 (zarange 0 (Z.of_nat ((if (nrow dist3 =? ncol dist3) && true then 1 else 0) + q_k (h_par bool o1'))))
     (if (nrow dist3 =? ncol dist3) && true then 1 else 0) ((if (nrow dist3 =? ncol dist3) && true then 1 else 0) + q_k (h_par bool o1')) None = Ok [[2]; [2]; [0]]) by (vm_compute; reflexivity).
  rewrite K in NB. cbn [bind] in NB. injection NB as _ _ ->. reflexivity.
Qed.

(** the permutations of this generator alternate between upwards and downwards *)
Definition flip_perm (m : nat) (g : bool) : list nat * bool := ((if g then seq 0 m else rev (seq 0 m)), negb g).
Lemma flip_shuffles : shuffles flip_perm.
Proof. intros m []; cbn; [reflexivity|]. apply Permutation_sym, Permutation_rev. Qed.
(** three objects with equal distances *)
Definition rows3 : list (list (nat * f64)) := [[(1, n1); (2, n1)]; [(0, n1); (2, n1)]; [(0, n1); (1, n1)]].
Definition par_sp : @hpar f64 := HPar "precomputed" 1 n1 64 1 true true true.

Lemma fit_sparse g s nn (o : @hobj f64 bool) : h_par _ o = par_sp -> h_own _ o = Some s ->
  k_neighbors_sparse ref_argpart rows3 1 (Some (class_perms bool flip_perm (InSparse 3 rows3) (Some s) g)) = Ok nn ->
  exists o', fstep flip_perm (g, o) (HFit _ (InSparse 3 rows3) None true) (g, o') (Ok tt) /\ h_par _ o' = par_sp /\
    h_own _ o' = Some (negb s) /\ h_nn _ o' = Some nn.
Proof.
  intros Ep Eo K.
  assert (NB := nb_pre_sparse (fun _ _ _ => n0) ref_argpart par_sp (Some (class_perms bool flip_perm (InSparse 3 rows3) (Some s) g)) true 3 rows3 eq_refl).
  change (q_k par_sp) with 1 in NB. rewrite K in NB. cbn [bind] in NB.
  assert (PO : perms_of bool flip_perm o (InSparse 3 rows3) g = Some (class_perms bool flip_perm (InSparse 3 rows3) (Some s) g)) by (unfold perms_of; now rewrite Ep, Eo).
  rewrite <- PO in NB. rewrite <- Ep in NB.
  assert (S := hs_done (fun _ _ _ => n0) (fun _ => n0) (fun x _ => x) (fun _ => n0) (fun _ => n0) ref_argpart bool flip_perm g o (InSparse 3 rows3) None true _ _ _ NB).
  assert (AD : advanced bool flip_perm (InSparse 3 rows3) (draw_lens (h_par _ o) (InSparse 3 rows3)) g (h_own _ o) = (g, Some (negb s))).
  { rewrite Ep, Eo. cbn. now rewrite Bool.negb_involutive. }
  rewrite AD in S. cbn [fst snd] in S.
  revert S. unfold assign. cbv zeta. destruct (Nat.eqb_spec (length (bincount (concat nn) 3)) 0) as [Z|_].
  { pose proof (bincount_len (concat nn) 3). lia. }
  cbn [fst snd]. intros S. eexists. split; [exact S|]. cbn. rewrite Ep. auto.
Qed.

(** DEFECT: fitted twice to the same sparse matrix, an object with a fixed random_state
    finds different neighbours. *)
Theorem C156_same_matrix_twice : shuffles flip_perm /\
  forall g, exists o1 o2, let o := HObj bool par_sp (Some true) None None None None in
    fstep flip_perm (g, o) (HFit _ (InSparse 3 rows3) None true) (g, o1) (Ok tt) /\ h_nn _ o1 = Some [[1]; [2]; [0]] /\
    fstep flip_perm (g, o1) (HFit _ (InSparse 3 rows3) None true) (g, o2) (Ok tt) /\ h_nn _ o2 = Some [[2]; [0]; [1]].
Proof.
  split; [exact flip_shuffles|]. intros g. set (o := HObj bool par_sp (Some true) None None None None).
  destruct (fit_sparse g true [[1]; [2]; [0]] o) as (o1 & S1 & P1 & G1 & N1); [reflexivity|reflexivity|vm_compute; reflexivity|].
  destruct (fit_sparse g false [[2]; [0]; [1]] o1) as (o2 & S2 & P2 & G2 & N2); [exact P1|exact G1|vm_compute; reflexivity|].
  exists o1, o2. auto.
Qed.

Print Assumptions C156_measures.
Print Assumptions C156_neighbours.
Print Assumptions C156_empty_matrix.
Print Assumptions C156_generator_goes_on.
Print Assumptions C156_stale_witness.
Print Assumptions C156_same_matrix_twice.
