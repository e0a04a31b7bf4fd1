(** Property C157: how worker processes are started decides whether parallel
    results are right. *)
From Coq Require Import String.
From Coq Require Import ZArith List Arith Lia Bool Permutation Reals Lra Relations.
From Verif Require Import Py Num NumT Arr Sort Conc S_Neighbors M_IO M_Dist M_Hubness M_SNN M_LS M_Centering M_MPEmpiric M_Simhub M_HubnessClass M_Approx S_Centering NumPow P_Vec P_Centering P_LCent P_DSL Properties_Hubness M_Start P_Start.
Import ListNotations.
Local Open Scope nat_scope.

(* ------------------------------------------------------------------ *)
(** ** Fork: whatever a pool of forked workers returns is one of the outcomes
    covered by C04, C15, C29, C45, C56, C58, C68, C78 (which say that it equals
    the result without worker processes). *)
Section ForkOK.
  Context {V : Type} {N : Num V}.

  Theorem C157_fork_hubness : forall argpart p sparse (D : arr2 V) k metric se rps r,
    hubness_on Fork argpart p sparse D k metric se rps r ->
    hubness_parallel argpart sparse D k metric se rps false r.
  Proof.
    intros argpart p sparse D k metric se rps r H. destruct H as [e E|E Hk|i e E Hk Hi Ht|rows mm E Hk Hr Hp].
    - now apply hp_metric.
    - now apply hp_negk.
    - eapply hp_task_raise; eauto.
    - eapply hp_ok; eauto. now apply pool_shared in Hp.
  Qed.

  Theorem C157_fork_local_scaling : forall vexp part p (D : arr2 V) k metric test cpu r, 1 < p ->
    local_scaling_on Fork vexp part p D k metric test r ->
    local_scaling vexp part D k metric test cpu (Z.of_nat p) r.
  Proof.
    intros vexp part p D k metric test cpu r Hp H.
    assert (J : (1 < (if Z.of_nat p =? -1 then Z.of_nat cpu else Z.of_nat p))%Z)
      by (destruct (Z.eqb_spec (Z.of_nat p) (-1)); lia).
    destruct H as [e E|rs r data E H1 H2].
    - now apply ls_fail.
    - apply pool_shared in H1; [|reflexivity]. apply pool_shared in H2; [|reflexivity]. eapply ls_pool; eauto.
  Qed.

  Theorem C157_fork_nicdm : forall vexp vln vsum part p (D : arr2 V) k metric test cpu r, 1 < p ->
    nicdm_on Fork vexp vln vsum part p D k metric test r ->
    nicdm vexp vln vsum part D k metric test cpu (Z.of_nat p) r.
  Proof.
    intros vexp vln vsum part p D k metric test cpu r Hp H.
    assert (J : (1 < (if Z.of_nat p =? -1 then Z.of_nat cpu else Z.of_nat p))%Z)
      by (destruct (Z.eqb_spec (Z.of_nat p) (-1)); lia).
    destruct H as [e E|rs r data E H1 H2].
    - now apply ni_fail.
    - apply pool_shared in H1; [|reflexivity]. apply pool_shared in H2; [|reflexivity]. eapply ni_pool; eauto.
  Qed.

  Theorem C157_fork_snn : forall argpart p (D : arr2 V) k metric r,
    snn_on Fork argpart p D k metric r -> snn_parallel argpart D k metric r.
  Proof.
    intros argpart p D k metric r H.
    assert (S : forall x, (check_distance_matrix_shape (Dense [nrow D; ncol D]) ;; check_valid_metric_parameter metric)%py = Ok x ->
      check_distance_matrix_shape (Dense [nrow D; ncol D]) = Ok tt /\ check_valid_metric_parameter metric = Ok tt).
    { intros x. destruct (check_distance_matrix_shape _) as [[]|]; [|discriminate]. cbn. intros E. split; [reflexivity|].
      destruct (check_valid_metric_parameter metric) as [[]|]; [reflexivity|discriminate]. }
    destruct H as [e E|i e E Hi Ht|hoods s1 s2 E Hh H1 H2].
    - destruct (check_distance_matrix_shape (Dense [nrow D; ncol D])) as [[]|e'] eqn:E1.
      + apply sp_metric; [exact E1|exact E].
      + cbn in E. injection E as <-. now apply sp_shape.
    - apply S in E as (E1 & E2). eapply sp_task; eauto.
    - apply S in E as (E1 & E2). eapply sp_ok; eauto.
      + eapply shared_pool; [|exact H1]. reflexivity.
      + eapply shared_pool; [|exact H2]. reflexivity.
  Qed.

  Theorem C157_fork_simhub : forall argsort vln vsum p (D : arr2 V) train test s ret_dist r,
    simhubIN_on Fork vln vsum argsort p D train test s ret_dist r ->
    simhubIN_parallel argsort vln vsum D train test s ret_dist r.
  Proof.
    intros argsort vln vsum p D train test s ret_dist r H. destruct H as [e E|knn data E H1 H2].
    - now apply shp_raise.
    - apply pool_shared in H1; [|reflexivity]. apply pool_shared in H2; [|reflexivity]. eapply shp_ok; eauto.
  Qed.

  Theorem C157_fork_localized_centering : forall vsum vpow argpart p (X : arr2 V) Y kappa gamma cpu r, 1 < p ->
    localized_centering_on Fork vsum vpow argpart p X Y kappa gamma r ->
    localized_centering vsum vpow argpart X Y kappa gamma cpu (Z.of_nat p) r.
  Proof.
    intros vsum vpow argpart p X Y kappa gamma cpu r Hp H.
    assert (J : (1 < (if Z.of_nat p =? -1 then Z.of_nat cpu else Z.of_nat p))%Z)
      by (destruct (Z.eqb_spec (Z.of_nat p) (-1)); lia).
    destruct H as [e E|sim S e W E1 E2 E3|sim S la buf W E1 E2 E3 H].
    - now apply lc_fail_dot.
    - eapply lc_fail; eauto.
    - apply pool_shared in H; [|reflexivity]. eapply lc_pool; eauto.
  Qed.

  Theorem C157_fork_dis_sim_local : forall vsum argpart p (X : arr2 V) k r, 1 < p ->
    dis_sim_local_on Fork vsum argpart p X k r -> dis_sim_local vsum argpart X k (Z.of_nat p) None r.
  Proof.
    intros vsum argpart p X k r Hp H. destruct H as [e E|D0 c E H].
    - apply dsl_bad; [exact I|]. cbv zeta. rewrite E. reflexivity.
    - apply dsl_self; [exact E|]. destruct H as [e H|nn buf H1 H2].
      + now apply dc_fail.
      + apply pool_shared in H2; [|reflexivity]. eapply dc_pool; eauto. lia.
  Qed.

  Theorem C157_fork_class : forall rdist argpart p (X Y : arr2 V) metric k kth start end_ bs r, p <> 1 ->
    k_neighbors_on Fork argpart rdist p X Y metric k kth start end_ bs r ->
    k_neighbors rdist argpart X Y metric k kth start end_ bs (Z.of_nat p) r.
  Proof.
    intros rdist argpart p X Y metric k kth start end_ bs r Hp H. destruct H as [E|nb i e E Hi Ht|nb nns buf E Hm H].
    - now apply kn_zero.
    - eapply kn_fail; eauto. lia.
    - apply pool_shared in H; [|reflexivity]. eapply kn_pool; eauto. lia.
  Qed.

  Theorem C157_fork_approximate_mp : forall sdist vstore p metric ns (Xt X : arr2 V) r, p <> 1 ->
    transform_mp_on Fork sdist vstore p metric ns Xt X r ->
    transform_mp_fixed sdist vstore metric ns (Z.of_nat p) Xt X r.
  Proof.
    intros sdist vstore p metric ns Xt X r Hp H. destruct H as [E|e E1 E2|buf E1 E2 H].
    - now apply tm_metric.
    - now apply tm_check.
    - apply pool_shared in H; [|reflexivity]. eapply tm_pool; eauto. lia.
  Qed.

  (** ** The sparse empiric Mutual Proximity hands the ctypes object to its
      workers: right for every start method. *)
  Theorem C157_sparse_mp_any_start_method : forall st p (S : smat V) min_nnz test_ind r,
    srow S = scol S -> test_ind_rejected test_ind = false ->
    mp_empiric_sparse_on st p S min_nnz r -> mp_empiric_sparse S "similarity" test_ind min_nnz r.
  Proof.
    intros st p S min_nnz test_ind r Sq Ht (data & H & ->). apply pool_shared in H; [|now destruct st].
    apply mpes_ok; auto.
  Qed.
End ForkOK.

(* ------------------------------------------------------------------ *)
(** ** DEFECT: with spawn or forkserver the other functions never see what their
    workers compute.  They return without an error, and the result does not
    depend on the distances. *)
Lemma bincount_zeros l m : 0 < m -> (forall x, In x l -> x = 0) -> bincount l m = length l :: repeat 0 (m - 1).
Proof.
  intros Hm H. assert (B : forall x, In x l -> x < m) by (intros x Hx; rewrite (H x Hx); exact Hm).
  assert (Lm : length (bincount l m) = m) by now apply bincount_length.
  apply (nth_ext _ _ 0 0); [cbn; rewrite repeat_length; lia|]. intros x Hx. rewrite Lm in Hx.
  rewrite bincount_nth by assumption. destruct x as [|x]; cbn [nth].
  - clear B Lm. induction l as [|a l IH]; [reflexivity|]. rewrite (H a) by now left. cbn. f_equal. apply IH. intros y Hy. apply H. now right.
  - rewrite nth_repeat. apply count_occ_not_In. intros I. specialize (H _ I). discriminate.
Qed.

Section SpawnBad.
  Context {V : Type} {N : Num V}.

  (** hubness: object 0 fills all neighbour lists and has all n * k occurrences *)
  Theorem C157_spawn_hubness : forall st, st <> Fork ->
    forall argpart p sparse (D : arr2 V) k metric se rps o, 0 < ncol D ->
    hubness_on st argpart p sparse D k metric se rps (Ok o) ->
    let k' := if (Z.of_nat (ncol D) <=? k)%Z then ncol D - 1 else Z.to_nat k in
    out_Dk o = repeat (repeat 0 k') (nrow D) /\
    out_Nk o = nrow D * k' :: repeat 0 (ncol D - 1).
  Proof.
    intros st Hst argpart p sparse D k metric se rps o Hm H k'. remember (Ok o) as res eqn:E.
    destruct H as [e Em|Em Hk|i e Em Hk Hi Ht|rows mm Em Hk Hr Hp]; try discriminate.
    apply (pool_private _ _ _ _ _ _ _ _ (not_fork st Hst)) in Hp. subst mm. cbv zeta in E. injection E as <-. cbn [out_Dk out_Nk].
    assert (K : Z.to_nat (hub_k k (ncol D)) = k').
    { unfold hub_k, k'. destruct (Z.of_nat (ncol D) <=? k)%Z; [lia|reflexivity]. }
    rewrite K. assert (R : forall n (A : Type) (a : A), map (fun _ => a) (seq 0 n) = repeat a n).
    { intros n A a. generalize 0. induction n as [|n IH]; intros b; [reflexivity|]. cbn. now rewrite IH. }
    assert (L : read_rows (nrow D) k' (fun _ : hub_cell => 0) = repeat (repeat 0 k') (nrow D)).
    { unfold read_rows. rewrite <- (R (nrow D)). apply map_ext. intros i. apply R. }
    rewrite L. split; [reflexivity|]. rewrite bincount_zeros; [|exact Hm|].
    - assert (Q : forall n, length (concat (repeat (repeat 0 k') n)) = n * k'); [|now rewrite Q].
      induction n as [|n IH]; [reflexivity|]. cbn [repeat concat]. rewrite app_length, repeat_length, IH. lia.
    - intros x Hx. apply in_concat in Hx as (l & Hl & Hx). apply repeat_spec in Hl. subst l. now apply repeat_spec in Hx.
  Qed.

  (** the class finds object 0 only *)
  Theorem C157_spawn_class : forall st, st <> Fork ->
    forall rdist argpart p (X Y : arr2 V) metric k kth start end_ bs l,
    k_neighbors_on st argpart rdist p X Y metric k kth start end_ bs (Ok l) ->
    length l = nrow X /\ forall i j, nth j (nth i l []) 0 = 0.
  Proof.
    intros st Hst rdist argpart p X Y metric k kth start end_ bs l H. remember (Ok l) as res eqn:E.
    destruct H as [Eb|nb i e E1 Hi Ht|nb nns buf E1 Hm Hp]; try discriminate.
    apply (pool_private _ _ _ _ _ _ _ _ (not_fork st Hst)) in Hp. subst buf. injection E as <-.
    split; [now rewrite map_length, seq_length|]. intros i j.
    assert (A : forall l, In l (map (fun _ : nat => map (fun _ : nat => 0) (seq 0 k)) (seq 0 (nrow X))) \/ l = [] -> nth j l 0 = 0).
    { intros l [Hl| ->]; [|now destruct j]. apply in_map_iff in Hl as (a & <- & _).
      destruct (nth_in_or_default j (map (fun _ : nat => 0) (seq 0 k)) 0) as [I|I]; [|exact I].
      apply in_map_iff in I as (b & <- & _). reflexivity. }
    apply A. match goal with |- In (nth _ ?l _) _ \/ _ => destruct (nth_in_or_default i l []); [now left|now right] end.
  Qed.

  (** local scaling: all secondary distances (or similarities) are 0 *)
  Theorem C157_spawn_local_scaling : forall st, st <> Fork ->
    forall vexp part p (D M : arr2 V) k metric test,
    local_scaling_on st vexp part p D k metric test (Ok M) ->
    nrow M = nrow D /\ ncol M = nrow D /\
    forall i j, i < nrow D -> j < nrow D -> i <> j -> at2 M i j = n0.
  Proof.
    intros st Hst vexp part p D M k metric test H. remember (Ok M) as res eqn:E.
    destruct H as [e Ee|rs r data Er H1 H2]; [discriminate|].
    apply (pool_private _ _ _ _ _ _ _ _ (not_fork st Hst)) in H2. subst data. injection E as <-.
    split; [reflexivity|]. split; [reflexivity|]. intros i j Hi Hj Hn. cbn. destruct (Nat.eqb_spec i j); [lia|]. reflexivity.
  Qed.

  (** NICDM: all 0 *)
  Theorem C157_spawn_nicdm : forall st, st <> Fork ->
    forall vexp vln vsum part p (D M : arr2 V) k metric test,
    nicdm_on st vexp vln vsum part p D k metric test (Ok M) ->
    nrow M = nrow D /\ ncol M = nrow D /\ forall i j, at2 M i j = n0.
  Proof.
    intros st Hst vexp vln vsum part p D M k metric test H. remember (Ok M) as res eqn:E.
    destruct H as [e Ee|rs r data Er H1 H2]; [discriminate|].
    apply (pool_private _ _ _ _ _ _ _ _ (not_fork st Hst)) in H2. subst data. injection E as <-. repeat split; reflexivity.
  Qed.

  (** approximate Mutual Proximity: all 0 *)
  Theorem C157_spawn_approximate_mp : forall st, st <> Fork ->
    forall sdist vstore p metric ns (Xt X M : arr2 V),
    transform_mp_on st sdist vstore p metric ns Xt X (Ok M) ->
    nrow M = nrow X /\ ncol M = nrow Xt /\ forall i j, at2 M i j = n0.
  Proof.
    intros st Hst sdist vstore p metric ns Xt X M H. remember (Ok M) as res eqn:E.
    destruct H as [E1|e E1 E2|buf E1 E2 H]; try discriminate.
    apply (pool_private _ _ _ _ _ _ _ _ (not_fork st Hst)) in H. subst buf. injection E as <-. repeat split; reflexivity.
  Qed.
End SpawnBad.

(** shared nearest neighbours, in float64: all 0 (distances: nobody is far from
    anybody; similarities: nobody is similar to another) *)
Theorem C157_spawn_snn : forall st, st <> Fork ->
  forall argpart p (D M : arr2 f64) k metric,
  snn_on st argpart p D k metric (Ok M) ->
  nrow M = nrow D /\ ncol M = nrow D /\
  forall i j, i < nrow D -> j < nrow D -> i <> j -> at2 M i j = n0.
Proof.
  intros st Hst argpart p D M k metric H. remember (Ok M) as res eqn:E.
  destruct H as [e Ee|i e E1 Hi Ht|hoods s1 s2 E1 Hh H1 (H2 & _)]; try discriminate.
  rewrite (not_fork st Hst) in H2. apply spawn_main in H2. cbn [pool_start ps_main] in H2. rewrite H2 in E.
  assert (E' : M = snn_finish metric (Arr2 (nrow D) (nrow D) (fun _ _ => n0))) by (injection E as <-; reflexivity).
  rewrite E'. split; [reflexivity|]. split; [reflexivity|]. intros i j Hi Hj Hn. unfold snn_finish, fill_diagonal, zip2, transpose. cbn [at2].
  destruct (Nat.eqb_spec i j); [lia|]. cbn [andb]. vm_compute. reflexivity.
Qed.

(** simhubIN, in exact arithmetic, for all test sets: every object is at
    distance 1 from every other (without the option return_distances: at
    similarity 0) *)
Theorem C157_spawn_simhub : forall st, st <> Fork ->
  forall argsort p (D M : arr2 xr) train test s ret_dist, (1 <= s)%Z -> 2 <= ncol D ->
  simhubIN_on st xln xsum argsort p D train test s ret_dist (Ok M) ->
  ncol M = ncol D /\ nrow M = (match test with None => nrow D | Some t => length t end) /\
  forall i j, (test = None -> i <> j) -> at2 M i j = XFin (if ret_dist then 1 else 0).
Proof.
  intros st Hst argsort p D M train test s ret_dist Hs Hm H. remember (Ok M) as res eqn:E.
  destruct H as [e Ee|knn data E1 H1 H2]; [discriminate|].
  apply (pool_private _ _ _ _ _ _ _ _ (not_fork st Hst)) in H2. subst data.
  assert (EM : M = shi_finish ret_dist (shi_norm xln s (ncol D)) test (Arr2 (nrow D) (ncol D) (fun _ _ => n0))) by congruence.
  rewrite EM. clear E EM.
  assert (P : exists q : R, q <> 0%R /\ shi_norm xln s (ncol D) = XFin q).
  { exists (IZR s * ln (INR (ncol D)))%R. assert (L : (1 < INR (ncol D))%R).
    { apply (lt_INR 1). lia. }
    split.
    - apply Rmult_integral_contrapositive_currified; [apply IZR_neq; lia|]. rewrite <- ln_1. intros Q. apply ln_inv in Q; lra.
    - unfold shi_norm. rewrite nofnat_xr. unfold xln. destruct (Rlt_dec (INR (ncol D)) 0); [lra|]. destruct (Req_EM_T (INR (ncol D)) 0); [lra|]. reflexivity. }
  destruct P as (q & Hq & Eq). rewrite Eq.
  assert (Z : ndiv (n0 : xr) (XFin q) = XFin 0).
  { change (n0 : xr) with (XFin 0). etransitivity; [apply xdiv_fin; exact Hq|]. f_equal. field. exact Hq. }
  assert (U : nadd (nmul (XFin 0) (nopp n1)) n1 = XFin 1) by (cbn; f_equal; ring).
  unfold shi_finish. destruct test as [t|]; (split; [now destruct ret_dist|]); (split; [now destruct ret_dist|]); intros i j Hij.
  - destruct ret_dist; cbn [map2d at2]; rewrite Z; [exact U|reflexivity].
  - specialize (Hij eq_refl). unfold fill_diagonal. cbn [at2]. apply Nat.eqb_neq in Hij. rewrite Hij.
    destruct ret_dist; cbn [map2d at2]; rewrite Z; [exact U|reflexivity].
Qed.

(** localized centering, in exact arithmetic, gamma > 0: the result is the plain
    cosine similarity, whatever kappa and gamma are *)
Theorem C157_spawn_localized_centering : forall st, st <> Fork ->
  forall argpart p n ny m x y kappa gamma L, (0 < gamma)%R ->
  localized_centering_on st xsum xpow argpart p (rmat n m x) (Some (rmat ny m y)) kappa (XFin gamma) (Ok L) ->
  nrow L = n /\ ncol L = ny /\
  forall i j, i < n -> j < ny -> at2 L i j = XFin (dotR m (unitR m (x i)) (unitR m (y j))).
Proof.
  intros st Hst argpart p n ny m x y kappa gamma L Hg H. remember (Ok L) as res eqn:E.
  set (Y := rmat ny m y) in *. set (YY := Some Y) in *. assert (EY : (match YY with None => rmat n m x | Some Y => Y end) = Y) by reflexivity.
  destruct H as [e Ee|sim S e W E1 E2 E3|sim S la buf W E1 E2 E3 Hp]; try discriminate.
  apply (pool_private _ _ _ _ _ _ _ _ (not_fork st Hst)) in Hp. subst buf. subst W. rewrite EY in *.
  pose proof (unit_rows_fin _ x (rmat_finite n m x)) as UX. pose proof (unit_rows_fin _ y (rmat_finite ny m y)) as UY. fold Y in UY.
  destruct (matmul_fin _ _ _ _ UX (transpose_fin _ _ UY)) as (C & EC & RC & CC & FC); [reflexivity|].
  assert (C = sim) as -> by congruence.
  cbn [unit_rows transpose rmat nrow ncol Y] in RC, CC, FC.
  pose proof (lcent_finish_fin sim _ (nrow (unit_rows xsum Y)) (fun _ => n0) (fun _ => 0%R) gamma FC CC (fun _ _ => eq_refl) (Rlt_le _ _ Hg)) as F.
  assert (EL : L = lcent_finish xpow sim (nrow (unit_rows xsum Y)) (fun _ => n0) (XFin gamma)) by congruence.
  rewrite EL. split; [exact RC|]. split; [exact CC|]. intros i j Hi Hj. rewrite F; [|cbn; lia|cbn; lia]. f_equal.
  unfold lc_pen, powR. destruct (Req_EM_T gamma 1); [rewrite Rminus_0_r; reflexivity|]. destruct (existsb _ _); [rewrite Rminus_0_r; reflexivity|]. destruct (Req_EM_T gamma 0); [lra|]. destruct (Req_EM_T 0 0); [rewrite Rminus_0_r; reflexivity|contradiction].
Qed.

(** DisSimLocal, in exact arithmetic: instead of local centroids the origin is
    used, so the result is -2 <x, y>, whatever k is *)
Theorem C157_spawn_dis_sim_local : forall st, st <> Fork ->
  forall argpart p n m x k L, 0 < n -> 0 < m ->
  dis_sim_local_on st xsum argpart p (rmat n m x) k (Ok L) ->
  nrow L = n /\ ncol L = n /\
  forall i j, i < n -> j < n -> i <> j -> at2 L i j = XFin (- 2 * dotR m (x i) (x j)).
Proof.
  intros st Hst argpart p n m x k L Hn Hm H. remember (Ok L) as res eqn:E.
  destruct H as [e Ee|D0 c E0 Hc]; [discriminate|].
  destruct c as [c|e]; [|discriminate E]. remember (Ok c) as rc eqn:Ec.
  destruct Hc as [e Ee|nn buf E1 Hp]; [discriminate|].
  apply (pool_private _ _ _ _ _ _ _ _ (not_fork st Hst)) in Hp. subst buf. clear Ec c.
  destruct (euclid_fin (rmat n m x) (rmat n m x) x x (rmat_finite n m x) (rmat_finite n m x)) as (D & ED & RD & CD & FD); try (cbn; lia).
  assert (D0 = D) as -> by congruence. cbn [rmat nrow ncol] in RD, CD, FD.
  cbn [bind] in E. injection E as <-. cbn [fill_diagonal nrow ncol at2]. split; [exact RD|]. split; [exact CD|].
  intros i j Hi Hj Hne. apply Nat.eqb_neq in Hne. rewrite Hne. rewrite FD by lia.
  rewrite (dsl_sq_fin (rmat n m x) x _ (fun _ => 0%R) i (rmat_finite n m x) Hi) by reflexivity.
  rewrite (dsl_sq_fin (rmat n m x) x _ (fun _ => 0%R) j (rmat_finite n m x) Hj) by reflexivity.
  cbn [rmat ncol]. cbn. f_equal. unfold sqdistR, dotR. clear.
  induction (seq 0 m) as [|f l IH]; cbn; [ring|]. unfold rsum in *. cbn in *. lra.
Qed.

(* ------------------------------------------------------------------ *)
(** ** Outcomes exist for every way of starting workers, so the two sections above
    speak about real results *)
Theorem C157_outcome_exists : forall {V} {N : Num V} st argpart p sparse (D : arr2 V) k metric se rps, 0 < p ->
  exists r, hubness_on st argpart p sparse D k metric se rps r.
Proof.
  intros V N st argpart p sparse D k metric se rps Hp.
  destruct (check_valid_metric_parameter metric) as [[]|e] eqn:Em; [|exists (Raise e); now apply ho_metric].
  destruct (Z_lt_ge_dec (hub_k k (ncol D)) 0) as [Hk|Hk]; [eexists; now apply ho_negk|].
  destruct (mapM (fun i => hub_row_nn argpart metric (hub_kth_par metric (nrow D) (ncol D) (hub_k k (ncol D)))
                       (hub_shuffle se rps i) (hub_row metric (hub_prepare sparse metric D) i))
           (seq 0 (nrow D))) as [rows|e] eqn:Er.
  - destruct (pool_with_exists cell_eq st AsView p (fun _ : hub_cell => 0) (seq 0 (nrow D)) (fun i => hub_task i (nth i rows [])) Hp) as (mm & Hmm).
    eexists. eapply ho_ok; eauto; lia.
  - apply mapM_raise in Er as (i & Hi & Ht). apply in_seq in Hi. eexists. eapply ho_task; eauto; lia.
Qed.

(** the same for every pool that the functions of this section start *)
Theorem C157_pool_ends : forall {C V T : Type} (ceq : C -> C -> bool) st how p (m : C -> V) (tasks : list T) writes, 0 < p ->
  exists m', pool_with ceq st how p m tasks writes m'.
Proof. intros. now apply pool_with_exists. Qed.

(** three objects, k = 1: object 2 is nearest to 0 and 1, object 1 is nearest to 2.
    Forked workers find that; spawned workers report object 0 three times. *)
Theorem C157_witness : forall p, 0 < p ->
  (exists o, hubness_on Fork ref_argpart p false exD 1 "distance" true ex_rps (Ok o)) /\
  (forall o, hubness_on Fork ref_argpart p false exD 1 "distance" true ex_rps (Ok o) -> out_Nk o = [0; 1; 2]) /\
  (exists o, hubness_on Spawn ref_argpart p false exD 1 "distance" true ex_rps (Ok o)) /\
  (forall o, hubness_on Spawn ref_argpart p false exD 1 "distance" true ex_rps (Ok o) -> out_Nk o = [3; 0; 0]).
Proof.
  intros p Hp.
  assert (E : forall st, exists o, hubness_on st ref_argpart p false exD 1 "distance" true ex_rps (Ok o)).
  { intros st. assert (Er : mapM (fun i => hub_row_nn ref_argpart "distance" (hub_kth_par "distance" (nrow exD) (ncol exD) (hub_k 1 (ncol exD)))
                       (hub_shuffle true ex_rps i) (hub_row "distance" (hub_prepare false "distance" exD) i))
           (seq 0 (nrow exD)) = Ok [[2];[2];[1]]) by (vm_compute; reflexivity).
    destruct (pool_with_exists cell_eq st AsView p (fun _ : hub_cell => 0) (seq 0 (nrow exD)) (fun i => hub_task i (nth i [[2];[2];[1]] [])) Hp) as (mm & Hmm).
    eexists. eapply ho_ok; [reflexivity|vm_compute; discriminate|exact Er|exact Hmm]. }
  split; [apply E|]. split; [|split; [apply E|]].
  - intros o H. apply C157_fork_hubness in H.
    destruct (C04_parallel_equals_serial ref_argpart ex_argpart false exD 1 "distance" true ex_rps (or_intror eq_refl) ex_rps_wf) as (Q & _).
    apply Q in H. pose proof ex_run as R. rewrite <- H in R. injection R as _ R. exact R.
  - intros o H. apply C157_spawn_hubness in H as (_ & H); [exact H|discriminate|vm_compute; lia].
Qed.

Print Assumptions C157_fork_hubness.
Print Assumptions C157_fork_local_scaling.
Print Assumptions C157_fork_nicdm.
Print Assumptions C157_fork_snn.
Print Assumptions C157_fork_simhub.
Print Assumptions C157_fork_localized_centering.
Print Assumptions C157_fork_dis_sim_local.
Print Assumptions C157_fork_class.
Print Assumptions C157_fork_approximate_mp.
Print Assumptions C157_sparse_mp_any_start_method.
Print Assumptions C157_spawn_hubness.
Print Assumptions C157_spawn_class.
Print Assumptions C157_spawn_local_scaling.
Print Assumptions C157_spawn_nicdm.
Print Assumptions C157_spawn_approximate_mp.
Print Assumptions C157_spawn_snn.
Print Assumptions C157_spawn_simhub.
Print Assumptions C157_spawn_localized_centering.
Print Assumptions C157_spawn_dis_sim_local.
Print Assumptions C157_outcome_exists.
Print Assumptions C157_pool_ends.
Print Assumptions C157_witness.
