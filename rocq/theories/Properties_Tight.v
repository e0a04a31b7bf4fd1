(** Theorems added after wrong programs had passed the earlier ones: C156 (the global
    generator of random numbers over several fits), C137 (distances without hubness
    reduction), C161 (locks of killed workers). *)
From Coq Require Import String.
From Coq Require Import Reals ZArith List Arith Lia Bool Permutation.
From Verif Require Import Py Num NumT Arr Sort Conc M_Hubness M_KNN M_HubnessClass M_Rng M_HubnessLife.
From Verif Require Import M_Dist M_Approx M_ApproxPredict M_Lifecycle S_Lifecycle M_Crash P_Crash M_Start.
From Verif Require Import Properties_Rng Properties_Lifecycle M_HubnessLife Properties_HubnessLife NumF32 M_ApproxANN Properties_ApproxANN.
Import ListNotations.
Local Open Scope nat_scope.
Local Open Scope py_scope.

(** the rows of [A], then those of [B] *)
Definition stacked {V} (A B : arr2 V) : arr2 V :=
  Arr2 (nrow A + nrow B) (ncol A) (fun i j => if i <? nrow A then at2 A i j else at2 B (i - nrow A) j).

Section Global.
  Context {V : Type} {N : Num V}.
  Variable rdist : nat -> (nat -> V) -> (nat -> V) -> V.
  Variables (vsum : list V -> V) (vpow : V -> V -> V).
  Variables (skew trunc : list nat -> V).
  Variable argpart : list V -> list nat -> list nat.
  Variable G : Type.
  Variable perm : nat -> G -> list nat * G.
  Notation hstep := (hstep rdist vsum vpow skew trunc argpart G perm).

  Lemma advance_after m n g : advance G perm (repeat m n) g = after G perm m n g.
  Proof. revert g. induction n as [|n IH]; intros g; [reflexivity|]. cbn. apply IH. Qed.
  Lemma after_add m a b g : after G perm m (a + b) g = after G perm m b (after G perm m a g).
  Proof. revert g. induction a as [|a IH]; intros g; [reflexivity|]. cbn. apply IH. Qed.
  Lemma seq_shift_by a n : seq a n = map (fun j => a + j) (seq 0 n).
  Proof.
    apply (nth_ext _ _ 0 0); [now rewrite map_length, !seq_length|].
    intros i Hi. rewrite seq_length in Hi. rewrite seq_nth by exact Hi.
    rewrite (nth_indep _ 0 (a + 0)) by (now rewrite map_length, seq_length).
    rewrite map_nth with (f := fun j => a + j), seq_nth by exact Hi. lia.
  Qed.
  Lemma rowl_stacked_l (A B : arr2 V) i : i < nrow A -> rowl (stacked A B) i = rowl A i.
  Proof. intros H. unfold rowl, stacked. cbn [ncol at2]. apply map_ext. intros j. apply Nat.ltb_lt in H. now rewrite H. Qed.
  Lemma rowl_stacked_r (A B : arr2 V) i : ncol A = ncol B -> rowl (stacked A B) (nrow A + i) = rowl B i.
  Proof.
    intros H. unfold rowl, stacked. cbn [ncol at2]. rewrite H. apply map_ext. intros j. destruct (Nat.ltb_spec (nrow A + i) (nrow A)); [lia|].
    now replace (nrow A + i - nrow A) with i by lia.
  Qed.

  (** C156: fits to dense distances draw from the global generator, one permutation of
      the columns for each row: two fits in a row (without the rows' own objects among the
      columns) find the neighbours that one fit to the stacked matrix finds, and leave
      the global generator in the same state, whatever random_state is. *)
  Theorem C156_global_generator :
    forall g o A B g1 o1 g3 o3 a b,
      q_metric (h_par _ o) = "precomputed"%string -> q_shuffle (h_par _ o) = true -> q_nn (h_par _ o) = true ->
      ncol A = ncol B ->
      hstep (g, o) (HFit _ (InDense A) None false) (g1, o1) (Ok tt) -> h_nn _ o1 = Some a ->
      hstep (g1, o1) (HFit _ (InDense B) None false) (g3, o3) (Ok tt) -> h_nn _ o3 = Some b ->
      exists o4, hstep (g, o) (HFit _ (InDense (stacked A B)) None false) (g3, o4) (Ok tt) /\
        h_nn _ o4 = Some (a ++ b) /\ h_own _ o4 = h_own _ o.
  Proof.
    intros g o A B g1 o1 g3 o3 a b M Sh Q C S1 Na S3 Nb.
    destruct (fit_ok_inv _ _ _ _ _ _ _ _ _ _ _ _ _ _ S1) as (n1 & m1 & nn1 & h1 & (H1 & LE) & _ & _ & F1 & N1 & P1 & G1).
    destruct (fit_ok_inv _ _ _ _ _ _ _ _ _ _ _ _ _ _ S3) as (n3 & m3 & nn3 & h3 & (H3 & _) & _ & _ & F3 & N3 & P3 & G3).
    cbn [fst snd] in *. rewrite P1 in *. rewrite Q, F1 in N1. rewrite Q, F3 in N3.
    assert (nn1 = a) by congruence. assert (nn3 = b) by congruence. subst nn1 nn3.
    assert (DL : forall D, draw_lens (h_par _ o) (InDense D) = repeat (ncol D) (nrow D)) by (intros D; unfold draw_lens; now rewrite Sh, M).
    rewrite DL in G1, G3. unfold advanced in G1, G3.
    apply pair_equal_spec in G1 as (G1 & W1). apply pair_equal_spec in G3 as (G3 & W3). rewrite advance_after in G1, G3.
    unfold perms_of in H1, H3. rewrite P1, Sh in H3. rewrite Sh in H1.
    set (p := h_par _ o) in *.
    pose proof (nb_dense_inv _ _ _ _ _ _ _ M H1) as E1. pose proof (nb_dense_inv _ _ _ _ _ _ _ M H3) as E3.
    rewrite andb_false_r in E1, E3. cbn [Nat.add] in E1, E3. cbv zeta in E1, E3.
    destruct (k_neighbors_precomputed argpart A _ _ _ _) as [a'|] eqn:KA; cbn [bind] in E1; [|discriminate].
    destruct (k_neighbors_precomputed argpart B _ _ _ _) as [b'|] eqn:KB; cbn [bind] in E3; [|discriminate].
    assert (a' = a) by congruence. assert (b' = b) by congruence. assert (m1 = ncol A) by congruence. subst a' b' m1.
    set (f4 := class_perms G perm (InDense (stacked A B)) (h_own _ o) g).
    assert (KAB : k_neighbors_precomputed argpart (stacked A B) (zarange 0 (Z.of_nat (q_k p))) 0 (q_k p) (Some f4) = Ok (a ++ b)).
    { unfold k_neighbors_precomputed in *. change (nrow (stacked A B)) with (nrow A + nrow B). rewrite seq_app. cbn [Nat.add].
      rewrite (seq_shift_by (nrow A)).
      eapply mapM_app_ok; [|rewrite <- KA; apply mapM_ext|exact KB].
      - intros j Hj. cbv beta. rewrite rowl_stacked_r by exact C. f_equal. f_equal.
        unfold f4, class_perms, draw. change (ncol (stacked A B)) with (ncol A). rewrite after_add, <- G1, C. reflexivity.
      - intros i Hi. apply in_seq in Hi. cbv beta. rewrite rowl_stacked_l by lia. reflexivity. }
    assert (NB := nb_pre_dense rdist argpart p (Some f4) false (stacked A B) M).
    rewrite andb_false_r in NB. cbn [Nat.add] in NB. cbv zeta in NB. rewrite KAB in NB. cbn [bind] in NB.
    assert (PO : perms_of G perm o (InDense (stacked A B)) g = Some f4) by (unfold perms_of; fold p; now rewrite Sh). rewrite <- PO in NB.
    assert (S4 := hs_done rdist vsum vpow skew trunc argpart G perm g o (InDense (stacked A B)) None false _ _ _ NB).
    assert (OK4 : snd (assign vsum vpow skew trunc G o (nrow (stacked A B)) (ncol (stacked A B)) (a ++ b)) = Ok tt).
    { unfold assign. cbv zeta. destruct (Nat.eqb_spec (length (bincount (concat (a ++ b)) (ncol (stacked A B)))) 0) as [Z0|_]; [|reflexivity].
      rewrite concat_app in Z0. pose proof (bincount_app_len (concat a) (concat b) (ncol (stacked A B))). cbn [ncol stacked] in *. match goal with E : f_nn h1 = a |- _ => rewrite E in LE | _ => idtac end. lia. }
    rewrite OK4 in S4. fold p in S4. rewrite DL in S4. cbn [advanced fst snd] in S4. rewrite advance_after in S4.
    change (nrow (stacked A B)) with (nrow A + nrow B) in S4 at 1. change (ncol (stacked A B)) with (ncol A) in S4 at 1.
    rewrite after_add in S4. rewrite <- G1, C, <- G3 in S4.
    eexists. split; [exact S4|]. unfold assign. cbv zeta. fold p. destruct (_ =? 0); cbn; fold p; rewrite Q; auto.
  Qed.
End Global.

(** *** a concrete case for C156 *)
Definition ties3 : arr2 f64 := Arr2 3 3 (fun _ _ => n1).
Lemma fit_ties g nn (o : @hobj f64 bool) : h_par _ o = par_sp ->
  k_neighbors_precomputed ref_argpart ties3 (zarange 0 1) 0 1 (Some (class_perms bool flip_perm (InDense ties3) None g)) = Ok nn ->
  exists o', fstep flip_perm (g, o) (HFit _ (InDense ties3) None false) (negb g, o') (Ok tt) /\ h_par _ o' = par_sp /\ h_nn _ o' = Some nn.
Proof.
  intros Ep K.
  assert (NB := nb_pre_dense (fun _ _ _ => n0) ref_argpart par_sp (Some (class_perms bool flip_perm (InDense ties3) None g)) false ties3 eq_refl).
  rewrite andb_false_r in NB. change (q_k par_sp) with 1 in NB. cbn [Nat.add] in NB. cbv zeta in NB. change (Z.of_nat 1) with 1%Z in NB. rewrite K in NB. cbn [bind] in NB.
  assert (PO : perms_of bool flip_perm o (InDense ties3) g = Some (class_perms bool flip_perm (InDense ties3) None g)) by (unfold perms_of; now rewrite Ep).
  rewrite <- PO in NB. rewrite <- Ep in NB.
  assert (S := hs_done (fun _ _ _ => n0) (fun _ => n0) (fun x _ => x) (fun _ => n0) (fun _ => n0) ref_argpart bool flip_perm g o (InDense ties3) None false _ _ _ NB).
  assert (AD : advanced bool flip_perm (InDense ties3) (draw_lens (h_par _ o) (InDense ties3)) g (h_own _ o) = (negb g, h_own _ o)).
  { rewrite Ep. cbn. now rewrite Bool.negb_involutive. }
  rewrite AD in S. cbn [fst snd] in S.
  revert S. unfold assign. cbv zeta. destruct (Nat.eqb_spec (length (bincount (concat nn) (ncol ties3))) 0) as [Z|_].
  { pose proof (bincount_len (concat nn) (ncol ties3)). cbn in *. lia. }
  cbn [fst snd]. intros S. eexists. split; [exact S|]. cbn. rewrite Ep. auto.
Qed.
(** DEFECT: with any random_state, two fits to the same dense distances give different
    neighbours, because the permutations come from the global generator *)
Theorem C156_dense_twice : forall own, exists o1 o2, let o := HObj bool par_sp own None None None None in
  fstep flip_perm (true, o) (HFit _ (InDense ties3) None false) (false, o1) (Ok tt) /\ h_nn _ o1 = Some [[0]; [2]; [0]] /\
  fstep flip_perm (false, o1) (HFit _ (InDense ties3) None false) (true, o2) (Ok tt) /\ h_nn _ o2 = Some [[2]; [0]; [2]].
Proof.
  intros own. set (o := HObj bool par_sp own None None None None).
  destruct (fit_ties true [[0]; [2]; [0]] o) as (o1 & S1 & P1 & N1); [reflexivity|vm_compute; reflexivity|].
  destruct (fit_ties false [[2]; [0]; [2]] o1) as (o2 & S2 & P2 & N2); [exact P1|vm_compute; reflexivity|].
  exists o1, o2. auto.
Qed.

(** *** C137: without hubness reduction *)
Section Plain.
  Context {V : Type} {N : Num V}.
  Variable vsum : list V -> V.
  Variable sdist : string -> nat -> (nat -> V) -> (nat -> V) -> V.
  Variables (vexp : V -> V) (vsf : V -> V -> V -> V).
  Variable vstore : f64 -> V.
  Variable part : list V -> list nat -> list V.
  Variable argpart : list V -> list nat -> list nat.
  Variable P : par.

  (** C137: with hr_algorithm=None, transform returns the distances in the metric asked for,
      between every query and every vantage point: all objects of the last fit, or
      those of the sample *)
  Theorem C137_plain_distances :
    forall ns0 ind X y s, last_fit vsum sdist vexp vsf vstore part argpart P ns0 ind X y s -> good_sample ind X ->
      p_hr P = None -> p_metric P = "sqeuclidean"%string \/ p_metric P = "cosine"%string ->
    forall Z s' D, do_transform vsum sdist vexp vsf vstore part argpart P s Z s' (Done D) ->
      nrow D = nrow Z /\ ncol D = (match p_kind P with KNone => nrow X | _ => length ind end) /\
      forall i j, j < ncol D ->
        at2 D i j = sdist (p_metric P) (ncol Z) (at2 Z i) (at2 X (match p_kind P with KNone => j | _ => nth j ind 0 end)).
  Proof.
    intros ns0 ind X y s L G H M Z s' D T.
    destruct (C137_transform _ _ _ _ _ _ _ _ _ _ _ _ _ L G Z) as (A & _ & _). specialize (proj1 (A D) (ex_intro _ _ T)) as O.
    unfold one_shot in O. rewrite H in O. destruct (fit_check X); [|discriminate]. cbn [bind] in O.
    destruct (sampling_check _ _ _); [|discriminate]. cbn [bind] in O. unfold transform_without_hr in O.
    destruct (trans_check _ _); [|discriminate]. cbn [bind] in O. injection O as ->.
    assert (KM : known_metric (p_metric P) = true) by (destruct M as [-> | ->]; reflexivity). rewrite KM.
    unfold the_sample, cross_dists, rows_at. cbn. destruct (p_kind P); cbn [vantage]; rewrite ?seq_length; repeat split.
    intros i j Hj. rewrite seq_nth by exact Hj. reflexivity.
  Qed.
End Plain.

(** *** C161: locks *)
Section Locks.
  Context {C V T : Type} (ceq : C -> C -> bool).
  Variable writes : T -> list (C * V).

  Lemma get_lost p (s s' : kstate) : khistory ceq writes p s s' -> ks_get s = false -> ks_get s' = false /\ ks_queue s' = ks_queue s.
  Proof.
    induction 1 as [|a b c H R IH]; intros G; [auto|].
    assert (E : ks_get b = false /\ ks_queue b = ks_queue a).
    { destruct H as [H|(w & H)]; [destruct H; cbn in *; split; congruence|]. destruct H as [a g u Hw Hg Hu]; cbn in *. destruct g; [|auto].
      rewrite (Hg eq_refl) in G; discriminate. }
    destruct E as (E1 & E2). destruct (IH E1). split; congruence.
  Qed.
  Lemma put_lost p (s s' : kstate) : khistory ceq writes p s s' -> ks_put s = false -> ks_put s' = false /\ ks_done s' = ks_done s.
  Proof.
    induction 1 as [|a b c H R IH]; intros G; [auto|].
    assert (E : ks_put b = false /\ ks_done b = ks_done a).
    { destruct H as [H|(w & H)]; [destruct H; cbn in *; split; congruence|]. destruct H as [a g u Hw Hg Hu]; cbn in *. destruct u; [|auto].
      rewrite (Hu eq_refl) in G; discriminate. }
    destruct E as (E1 & E2). destruct (IH E1). split; congruence.
  Qed.

  (** C161: if a worker is killed while it holds the lock of the queue of tasks, nobody takes a
      task any more, and the pool never returns if there were tasks left; if it held the
      lock of the queue of results, no result arrives any more, and the pool never
      returns if results were missing *)
  Theorem C161_lost_lock_never_returns : forall p m tasks s w s' s'',
    khistory ceq writes p (kstart m tasks) s -> kkill p w s s' -> khistory ceq writes p s' s'' ->
    (ks_get s' = false -> ks_queue s'' = ks_queue s /\ (ks_queue s <> [] -> ~ returns tasks s'')) /\
    (ks_put s' = false -> ks_done s'' = ks_done s /\ (ks_done s <> length tasks -> ~ returns tasks s'')).
  Proof.
    intros p m tasks s w s' s'' H1 K H2.
    assert (E : ks_queue s' = ks_queue s /\ ks_done s' = ks_done s) by (destruct K; cbn; auto). destruct E as (E1 & E2).
    split; intros G.
    - destruct (get_lost _ _ _ H2 G) as (_ & Q). split; [congruence|]. intros NE R. unfold returns in R.
      assert (L := history_phi ceq writes p _ _ H1). rewrite start_phi in L.
      assert (L2 := history_phi ceq writes p _ _ H2). assert (L3 := kill_phi p w s s' K).
      unfold phi in *. rewrite Q, E1 in *. destruct (ks_queue s); [congruence|]. cbn [length] in *. lia.
    - destruct (put_lost _ _ _ H2 G) as (_ & Q). split; [congruence|]. intros NE R. unfold returns in R. congruence.
  Qed.
End Locks.
(** a worker of two is killed before any task was taken, holding the lock of the tasks *)
Example C161_lock_case : exists s', kkill 2 1 (kstart (T := unit) (fun _ : nat => 0) [tt]) s' /\ ks_get s' = false /\
  ks_queue (kstart (fun _ : nat => 0) [tt]) <> [].
Proof.
  eexists. split; [apply (k_kill 2 1 (kstart (fun _ : nat => 0) [tt]) false true); cbn; auto|]. split; [reflexivity|discriminate].
Qed.

(** C72: with one worker, queries by LSH under a metric other than the two known ones raise a
    ValueError (training falls back to squared Euclidean distances instead) ... *)
Theorem C72_lsh_serial_queries_unknown_metric :
  forall sdist metric k (Xt X : arr2 f32) ans res,
    metric <> "sqeuclidean"%string -> metric <> "cosine"%string -> 0 < nrow X ->
    lsh_trafo sdist metric k 1 Xt X ans res -> res = Raise ValueError.
Proof.
  intros sdist metric k Xt X ans res H1 H2 Hn H.
  assert (KM : known_metric metric = false).
  { unfold known_metric. apply String.eqb_neq in H1. apply String.eqb_neq in H2. now rewrite H1, H2. }
  inversion H as [old _ HL E|r Hj _ E]; [|now destruct Hj].
  destruct (nrow X) as [|n]; [lia|]. cbn [seq mapM]. unfold lsh_trafo_serial_row at 1. rewrite KM. reflexivity.
Qed.
(** ... and under a known one the k neighbours found are reported with their distances *)
Theorem C72_lsh_serial_queries :
  forall sdist metric k (Xt X : arr2 f32) ans res,
    (metric = "sqeuclidean" \/ metric = "cosine")%string -> 0 < k ->
    (forall i, i < nrow X -> length (nth i ans []) = k) ->
    lsh_trafo sdist metric k 1 Xt X ans res ->
    res = Ok (map (fun i => (nth i ans [], map (fun a => sdist metric (ncol Xt) (at2 X i) (at2 Xt a)) (nth i ans [])))
                  (seq 0 (nrow X))).
Proof.
  intros sdist metric k Xt X ans res Hm Hk Ha H.
  assert (KM : known_metric metric = true) by (unfold known_metric; destruct Hm as [->| ->]; reflexivity).
  inversion H as [old _ HL E|r Hj _ E]; [|now destruct Hj]. clear H E.
  assert (R : forall i, In i (seq 0 (nrow X)) -> lsh_trafo_serial_row sdist metric k Xt (old i) (at2 X i) (nth i ans []) =
     Ok (nth i ans [], map (fun a => sdist metric (ncol Xt) (at2 X i) (at2 Xt a)) (nth i ans []))).
  { intros i Hi. apply in_seq in Hi. specialize (Ha i ltac:(lia)). unfold lsh_trafo_serial_row. rewrite KM. unfold guard. cbn [negb bind].
    assert (Ne : nth i ans [] <> []) by (intros C; rewrite C in Ha; cbn in Ha; lia).
    rewrite lsh_dists_is by assumption. cbn [bind]. rewrite Ha, Nat.ltb_irrefl. cbn [bind]. unfold lsh_pad. rewrite Ha, Nat.ltb_irrefl.
    rewrite skipn_all2 by (rewrite map_length, HL; lia). now rewrite app_nil_r. }
  revert R. generalize (seq 0 (nrow X)). intros l R. induction l as [|i l IH]; cbn; [reflexivity|].
  rewrite (R i (or_introl eq_refl)). cbn [bind]. rewrite IH by (intros j Hj; apply R; now right). reflexivity.
Qed.
(** ... and an index that answers with more than k objects is an error *)
Theorem C72_lsh_serial_queries_too_many :
  forall sdist metric k (Xt X : arr2 f32) ans res i,
    i < nrow X -> k < length (nth i ans []) ->
    lsh_trafo sdist metric k 1 Xt X ans res -> exists e, res = Raise e.
Proof.
  intros sdist metric k Xt X ans res i Hi Hk H.
  inversion H as [old _ HL E|r Hj _ E]; [|now destruct Hj]. clear H E.
  assert (R : exists e, lsh_trafo_serial_row sdist metric k Xt (old i) (at2 X i) (nth i ans []) = Raise e).
  { unfold lsh_trafo_serial_row. apply Nat.ltb_lt in Hk. rewrite Hk. unfold guard.
    destruct (negb (known_metric metric)); cbn [bind]; [eauto|].
    destruct (lsh_dists _ _ _ _ _ _); cbn; eauto. }
  destruct R as (e & R). assert (Hin : In i (seq 0 (nrow X))) by (apply in_seq; lia).
  revert Hin. generalize (seq 0 (nrow X)). intros l Hin. induction l as [|j l IH]; [contradiction|]. cbn [mapM].
  destruct Hin as [->|Hin]; [rewrite R; cbn [bind]; eauto|].
  destruct (lsh_trafo_serial_row sdist metric k Xt (old j) (at2 X j) (nth j ans [])); cbn [bind]; [|eauto].
  destruct (IH Hin) as (e' & E'). rewrite E'. exists e'. reflexivity.
Qed.
Example C72_queries_case :
  let X : arr2 f32 := Arr2 2 1 (fun i _ => nofnat i) in
  let sdist (_ : string) (_ : nat) (u v : nat -> f32) := nsub (u 0) (v 0) in
  exists r1 r2, lsh_trafo sdist "cosine" 2 1 X X [[0; 1]; [1; 0]] r1 /\ lsh_trafo sdist "precomputed" 2 1 X X [[0; 1]; [1; 0]] r2.
Proof.
  intros X sdist. do 2 eexists. split; apply (lt_serial _ _ _ _ _ _ _ (fun _ => [n0; n0])); reflexivity.
Qed.

Print Assumptions C72_lsh_serial_queries_too_many.
Print Assumptions C156_global_generator.
Print Assumptions C156_dense_twice.
Print Assumptions C137_plain_distances.
Print Assumptions C161_lost_lock_never_returns.
Print Assumptions C72_lsh_serial_queries_unknown_metric.
Print Assumptions C72_lsh_serial_queries.
