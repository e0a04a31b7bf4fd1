(** Properties C80, C81: sampled and supervised hubness-aware shared neighbour
    distances (shared_neighbors.py:337-636), exact arithmetic. *)
From Coq Require Import String.
From Coq Require Import ZArith List Arith Lia Bool Reals Lra Permutation.
From Verif Require Import Py Num NumT Arr Sort Conc S_Neighbors S_SNN S_Simhub M_IO M_SNN M_GK M_Simhub.
From Verif Require Import P_Neighbors P_SNN P_Simhub P_Simhub2 Properties_Simhub.
Import ListNotations.
Local Open Scope nat_scope.

(** What a sampled call should return for test object [i] and training object
    number [j]: occurrences counted over the training objects. *)
Definition sampled_sim (hood : nat -> list nat) (train : list nat) (m s i j : nat) : R :=
  hub_sim hood (occurs (fun p => hood (nth p train 0)) m) m s i (nth j train 0).

Lemma hub_sim_ext hood N1 N2 m s i j :
  (forall x, In x (common (hood i) (hood j)) -> N1 x = N2 x) ->
  hub_sim hood N1 m s i j = hub_sim hood N2 m s i j.
Proof. intros H. unfold hub_sim. f_equal. apply rsum_ext. intros x Hx. now rewrite H. Qed.

Lemma occurs_ext h1 h2 m x : (forall p, p < m -> h1 p = h2 p) -> occurs h1 m x = occurs h2 m x.
Proof. intros H. unfold occurs. apply count_if_ext. intros p Hp. now rewrite H. Qed.

(** ** C80.  If the training objects are the first rows, in order, sampled
    simhubIN returns the specified value, in [0, 1], for every test object. *)
Theorem C80_leading_sample_correct :
  forall (argsort : list xr -> list nat), argsort_ok argsort ->
  forall (D : arr2 xr) test s rd,
    let m := ncol D in let train := seq 0 m in
    m <= nrow D -> 2 <= m -> 0 < s -> s <= m -> (forall i, In i test -> i < nrow D) ->
    exists M (hood : nat -> list nat),
      simhubIN_serial argsort xln xsum D (Some train) (Some test) (Z.of_nat s) rd = Ok M /\
      nrow M = length test /\ ncol M = m /\
      (forall i, shi_neighbours D train s i (hood i)) /\
      forall a j, a < length test -> j < m ->
        let sim := sampled_sim hood train m s (nth a test 0) j in
        at2 M a j = XFin (if rd then 1 - sim else sim)%R /\ (0 <= sim <= 1)%R.
Proof.
  intros argsort AS D test s rd m train Hn Hm Hs Hsm Hte.
  destruct (simhubIN_xr argsort AS D (Some train) (Some test) s rd) as (M & HM & HK & R & C & A);
    [assumption| |exact Hte|assumption|assumption|assumption|].
  { split; [apply seq_length|]. intros x Hx. apply in_seq in Hx. unfold m in *. lia. }
  cbn [cols_of shi_rows] in *. set (hood := shi_hood argsort (Z.of_nat s) (shi_dist D (Some train))) in *.
  exists M, hood. split; [exact HM|]. split; [exact R|]. split; [exact C|]. split; [exact HK|].
  intros a j Ha Hj. cbv zeta. rewrite A by (congruence || assumption). cbv zeta.
  fold m. unfold train. rewrite row_of_seq by assumption.
  assert (E : hub_sim hood (occurs hood m) m s (nth a test 0) j
    = sampled_sim hood train m s (nth a test 0) j).
  { unfold sampled_sim, train. rewrite seq_nth by assumption. cbn [Nat.add].
    apply hub_sim_ext. intros x _. apply occurs_ext. intros p Hp. now rewrite seq_nth. }
  fold train. rewrite E. split; [reflexivity|]. rewrite <- E.
  destruct (hub_sim_bounds hood (occurs hood m) m s (nth a test 0) j 1) as (B1 & B2);
    [assumption|assumption|apply (HK _)|lia| |].
  { intros x Hx. apply common_in in Hx as (Hx & _). apply (HK _) in Hx.
    split; [now apply occurs_pos|apply occurs_le]. }
  cbv zeta in *. change (INR 1) with 1%R in B2. rewrite ln_1 in B2.
  replace (1 - 0 / ln (INR m))%R with 1%R in B2 by (unfold Rdiv; lra). rewrite Rmult_1_r in B2.
  split; [exact B1|]. eapply Rle_trans; [exact B2|].
  assert (Hss : (0 < INR s)%R) by now apply INR_pos.
  apply Rmult_le_reg_r with (INR s); [assumption|]. unfold Rdiv. rewrite Rmult_assoc, Rinv_l by lra.
  rewrite Rmult_1_r, Rmult_1_l. apply le_INR.
  pose proof (overlap_le (hood (nth a test 0)) (hood j)) as L.
  destruct (HK (nth a test 0)) as [K1 _ _ _]. lia.
Qed.

(** For an arbitrary sample the code counts the occurrences in the first [m]
    rows, whichever objects these are, and from 2000 columns on compares with
    row [j] instead of the training object [j]. *)
Theorem C80_any_sample_characterised :
  forall (argsort : list xr -> list nat), argsort_ok argsort ->
  forall (D : arr2 xr) train test s rd,
    let m := ncol D in
    m <= nrow D -> length train = m -> (forall i, In i train -> i < nrow D) ->
    2 <= m -> 0 < s -> s <= m -> (forall i, In i test -> i < nrow D) ->
    exists M (hood : nat -> list nat),
      simhubIN_serial argsort xln xsum D (Some train) (Some test) (Z.of_nat s) rd = Ok M /\
      nrow M = length test /\ ncol M = m /\
      (forall i, shi_neighbours D train s i (hood i)) /\
      forall a j, a < length test -> j < m ->
        let sim := hub_sim hood (occurs hood m) m s (nth a test 0)
                     (if m <? 2000 then nth j train 0 else j) in
        at2 M a j = XFin (if rd then 1 - sim else sim)%R.
Proof.
  intros argsort AS D train test s rd m Hn Hl Htr Hm Hs Hsm Hte.
  destruct (simhubIN_xr argsort AS D (Some train) (Some test) s rd) as (M & HM & HK & R & C & A);
    [assumption|now split|exact Hte|assumption|assumption|assumption|].
  cbn [cols_of shi_rows] in *.
  exists M, (shi_hood argsort (Z.of_nat s) (shi_dist D (Some train))).
  split; [exact HM|]. split; [exact R|]. split; [exact C|]. split; [exact HK|].
  intros a j Ha Hj. cbv zeta. rewrite A by (congruence || assumption). reflexivity.
Qed.

(** a neighbourhood of size one with a strictly nearest column *)
Lemma nearest_one (D : arr2 xr) train i l c :
  shi_neighbours D train 1 i l -> c < ncol D ->
  (forall x, x < ncol D -> x <> c ->
     nearer "distance" (rank_value_s "distance" D train i c) (rank_value_s "distance" D train i x) = true) ->
  l = [c].
Proof.
  intros [K1 K2 K3 K4] Hc Hb. destruct l as [|y [|]]; try discriminate.
  destruct (Nat.eq_dec y c) as [->|Hne]; [reflexivity|].
  exfalso. specialize (K4 c y Hc). rewrite Hb in K4; [|apply K3; now left|assumption].
  assert (true = false); [|discriminate]. apply K4; [|now left]. intros [E|[]]. congruence.
Qed.

(** distance 1 to the column [near i], 2 to all others *)
Definition near_matrix (n m : nat) (near : nat -> nat) : arr2 xr :=
  Arr2 n m (fun i x => if x =? near i then XFin 1 else XFin 2).

Lemma near_matrix_hood n m near train i l :
  shi_neighbours (near_matrix n m near) train 1 i l -> near i < m -> nth (near i) train 0 <> i ->
  l = [near i].
Proof.
  intros H Hc Hs. apply (nearest_one _ _ _ _ _ H Hc). intros x Hx Hne.
  unfold rank_value_s. apply Nat.eqb_neq in Hs. rewrite Hs. cbn [at2 near_matrix].
  rewrite Nat.eqb_refl. unfold nearer. cbn [is_sim]. apply Nat.eqb_neq in Hne. rewrite Hne.
  cbn. destruct (nth x train 0 =? i); cbn; [reflexivity|]. destruct (Rlt_dec 1 2); [reflexivity|lra].
Qed.

(** Training objects 1, 2, 3 of four objects: objects 0 and 2 have the common
    neighbour 1, which is in every training neighbourhood, so their similarity
    is 0; the code returns ln(3/2)/ln 3. *)
Theorem C80_wrong_occurrence_counts :
  exists (D : arr2 xr) train,
    forall argsort, argsort_ok argsort ->
    exists M (hood : nat -> list nat),
      simhubIN_serial argsort xln xsum D (Some train) (Some [0]) 1 false = Ok M /\
      (forall i, shi_neighbours D train 1 i (hood i)) /\
      sampled_sim hood train (ncol D) 1 0 1 = 0%R /\
      exists v, at2 M 0 1 = XFin v /\ (0 < v)%R.
Proof.
  set (near := fun i => nth i [0; 1; 0; 0] 0).
  exists (near_matrix 4 3 near), [1; 2; 3]. intros argsort AS.
  destruct (C80_any_sample_characterised argsort AS (near_matrix 4 3 near) [1;2;3] [0] 1 false)
    as (M & hood & HM & R & C & HK & A); cbn [nrow ncol near_matrix length]; try lia.
  { intros i Hi. cbn in Hi. lia. }
  { intros i Hi. cbn in Hi. lia. }
  exists M, hood. split; [exact HM|]. split; [exact HK|].
  assert (H0 : hood 0 = [0]) by (apply (near_matrix_hood 4 3 near [1;2;3] 0); [apply HK|cbn; lia|cbn; lia]).
  assert (H1 : hood 1 = [1]) by (apply (near_matrix_hood 4 3 near [1;2;3] 1); [apply HK|cbn; lia|cbn; lia]).
  assert (H2 : hood 2 = [0]) by (apply (near_matrix_hood 4 3 near [1;2;3] 2); [apply HK|cbn; lia|cbn; lia]).
  assert (H3 : hood 3 = [0]) by (apply (near_matrix_hood 4 3 near [1;2;3] 3); [apply HK|cbn; lia|cbn; lia]).
  split.
  - unfold sampled_sim, hub_sim. change (nth 1 [1; 2; 3] 0) with 2. rewrite H0, H2. cbn [common filter existsb Nat.eqb orb map ncol near_matrix].
    assert (O : occurs (fun p => hood (nth p [1;2;3] 0)) 3 0 = 3).
    { unfold occurs. cbn [seq filter Nat.eqb orb nth]. rewrite H2, H3. reflexivity. }
    rewrite O. replace (INR 3 / INR 3)%R with 1%R by (cbn; field).
    rewrite ln_1. cbn [rsum fold_right]. unfold Rdiv. ring.
  - eexists. split; [apply (A 0 1); cbn; lia|]. cbn [nth].
    change (ncol (near_matrix 4 3 near) <? 2000) with true. cbn iota.
    unfold hub_sim. rewrite H0, H2. cbn [common filter existsb Nat.eqb orb map ncol near_matrix].
    assert (O : occurs hood 3 0 = 2).
    { unfold occurs. cbn [seq filter Nat.eqb orb]. rewrite H1, H2. reflexivity. }
    rewrite O. change (rsum [?x]) with (x + 0)%R.
    assert (0 < ln (INR 3 / INR 2))%R by (apply ln_gt0; cbn; lra).
    assert (0 < ln (INR 3))%R by (apply ln_gt0; cbn; lra).
    change (INR 1) with 1%R. apply Rdiv_lt_0_compat; lra.
Qed.

(** simhub on a sample: the result depends on vect_usage, and similarities can
    be negative (distances above 1) *)
Theorem C80_simhub_sample_broken :
  exists (D : arr2 xr) train,
    forall argsort, argsort_ok argsort ->
    exists Mv Ml v,
      simhub argsort xln xsum D None (Some train) (Some [0]) 1 true 1 = Ok Mv /\
      simhub argsort xln xsum D None (Some train) (Some [0]) 1 true (-1) = Ok Ml /\
      at2 Mv 0 1 = XFin 1 /\ at2 Ml 0 1 = XFin v /\ (1 < v)%R /\
      at2 Mv 0 0 = XFin v.
Proof.
  set (near := fun i => nth i [1; 1; 0] 0).
  set (D := near_matrix 3 2 near).
  exists D, [1; 2]. intros argsort AS.
  assert (T : ok_train D (Some [1; 2])) by (split; [reflexivity|intros x Hx; cbn in *; lia]).
  assert (T' : ok_test D (Some [0])) by (intros x Hx; cbn in *; lia).
  destruct (simhub_cells argsort AS D None (Some [1;2]) (Some [0]) 1 true 1) as (Mv & HMv & HK & Rv & Cv & Av);
    [cbn; lia|exact T|exact T'|exact I|lia|cbn; lia|].
  destruct (simhub_cells argsort AS D None (Some [1;2]) (Some [0]) 1 true (-1)) as (Ml & HMl & _ & Rl & Cl & Al);
    [cbn; lia|exact T|exact T'|exact I|lia|cbn; lia|].
  cbn [cols_of] in *.
  set (hood := shi_hood argsort (Z.of_nat 1) (shi_dist D (Some [1; 2]))) in *.
  assert (H0 : hood 0 = [1]) by (apply (near_matrix_hood 3 2 near [1;2] 0); [apply HK|cbn; lia|cbn; lia]).
  assert (H1 : hood 1 = [1]) by (apply (near_matrix_hood 3 2 near [1;2] 1); [apply HK|cbn; lia|cbn; lia]).
  assert (H2 : hood 2 = [0]) by (apply (near_matrix_hood 3 2 near [1;2] 2); [apply HK|cbn; lia|cbn; lia]).
  assert (L2 : (0 < ln 2)%R) by (apply ln_gt0; lra).
  assert (Sc : sh_scale None 2 1 = ln 2) by (cbn [sh_scale]; change (INR 1) with 1%R; replace (INR 2) with 2%R by (cbn; lra); ring).
  assert (S1 : sh_sum hood None 2 0 1 = ln (2 / 3)).
  { unfold sh_sum. rewrite H0, H1. cbn [common filter existsb Nat.eqb orb map].
    replace (occurs_any hood 2 1) with 2.
    2:{ unfold occurs_any. cbn [seq filter]. rewrite H0, H1. reflexivity. }
    change (rsum [?x]) with (x + 0)%R. rewrite Rplus_0_r. f_equal. cbn. lra. }
  assert (S2 : sh_sum hood None 2 0 2 = 0%R).
  { unfold sh_sum. rewrite H0, H2. reflexivity. }
  exists Mv, Ml, (1 - ln (2 / 3) / ln 2)%R.
  split; [exact HMv|]. split; [exact HMl|].
  assert (EA : forall (M : arr2 xr) j r, at2 M 0 j = conv true (XFin (sh_scale None 2 1)) (XFin (sh_sum hood None 2 0 r))
     -> at2 M 0 j = XFin (1 - sh_sum hood None 2 0 r / ln 2)%R).
  { intros M j r ->. rewrite Sc, conv_xr by lra. reflexivity. }
  split; [|split; [|split]].
  - rewrite (EA Mv 1 2).
    + rewrite S2. f_equal. unfold Rdiv. ring.
    + apply (Av 0 1); [rewrite Rv; cbn; lia|cbn; lia].
  - rewrite (EA Ml 1 1).
    + now rewrite S1.
    + apply (Al 0 1); [rewrite Rl; cbn; lia|cbn; lia].
  - assert (ln (2 / 3) < 0)%R by (rewrite <- ln_1; apply ln_increasing; lra).
    assert (0 < - ln (2/3) / ln 2)%R by (apply Rdiv_lt_0_compat; lra). unfold Rdiv in *. lra.
  - rewrite (EA Mv 0 1).
    + now rewrite S1.
    + apply (Av 0 0); [rewrite Rv; cbn; lia|cbn; lia].
Qed.

(** ** C81.  Supervised simhub on a square matrix with finite distances and at
    least two classes: the values, symmetric, never above 1; with exactly two
    classes never below 0. *)
Lemma sum_two (f : Z -> nat) a b : sum_nat (map f [a; b]) = f a + f b.
Proof. cbn. lia. Qed.

Lemma class_le hood y m c x : occurs_class hood y m c x <= occurs_any hood m x.
Proof. unfold occurs_class, occurs_any. apply count_if_mono. intros i Hi H. now apply andb_true_iff in H. Qed.

Lemma share_range hood y m c x : (0 < class_share hood y m c x <= 1)%R.
Proof.
  split; [apply class_share_pos|]. unfold class_share.
  pose proof (le_INR _ _ (class_le hood y m c x)). pose proof (pos_INR (occurs_any hood m x)).
  apply Rmult_le_reg_r with (INR (occurs_any hood m x) + 1)%R; [lra|].
  unfold Rdiv. rewrite Rmult_assoc, Rinv_l; lra.
Qed.

Lemma gain_le hood y m x : (info_gain hood y m x <= ln (INR (length (classes y))))%R.
Proof.
  unfold info_gain.
  assert (rsum (map (fun c => class_share hood y m c x * ln (class_share hood y m c x)) (classes y))
    <= INR (length (classes y)) * 0)%R; [|lra].
  apply rsum_le_bound. intros c _. destruct (share_range hood y m c x) as (P & L).
  assert (ln (class_share hood y m c x) <= 0)%R by (rewrite <- ln_1; apply ln_mono; assumption). nra.
Qed.

Lemma ln_le_sub1 t : (0 < t)%R -> (ln t <= t - 1)%R.
Proof.
  intros H. pose proof (exp_ineq1_le (ln t)) as E. rewrite exp_ln in E by assumption. lra.
Qed.

Lemma two_class_entropy p q : (0 < p)%R -> (0 < q)%R -> (1 <= p + q)%R ->
  (0 <= ln 2 + (p * ln p + q * ln q))%R.
Proof.
  intros Hp Hq Hs. set (h := ((p + q) / 2)%R). assert (Hh : (0 < h)%R) by (unfold h; lra).
  assert (G : forall r, (0 < r)%R -> (r * ln h - r * ln r <= h - r)%R).
  { intros r Hr. pose proof (ln_le_sub1 (h / r) (Rdiv_lt_0_compat _ _ Hh Hr)) as L.
    unfold Rdiv in L. rewrite ln_mult, ln_Rinv in L; try assumption; [|now apply Rinv_0_lt_compat].
    apply (Rmult_le_compat_l r) in L; [|lra].
    replace (r * (h * / r - 1))%R with (h - r)%R in L by (field; lra). lra. }
  pose proof (G p Hp) as Gp. pose proof (G q Hq) as Gq.
  assert (E : (h - p + (h - q) = 0)%R) by (unfold h; lra).
  assert (F : (p * ln p + q * ln q >= (p + q) * ln h)%R) by lra.
  assert (L2 : (0 < ln 2 < 1)%R).
  { split; [apply ln_gt0; lra|]. pose proof (ln_le_sub1 2 ltac:(lra)) as L.
    destruct (Rlt_le_dec (ln 2) 1) as [|G1]; [assumption|]. exfalso.
    pose proof ln_lt_2. assert (Q : ln 2 = 1%R) by lra.
    assert (exp 1 = 2)%R by (rewrite <- Q; apply exp_ln; lra).
    pose proof (exp_ineq1 1 ltac:(lra)). lra. }
  assert (EH : ln h = (ln (p + q) - ln 2)%R).
  { unfold h, Rdiv. rewrite ln_mult, ln_Rinv by lra. lra. }
  set (sg := (p + q)%R) in *.
  assert (L : (ln sg >= 1 - / sg)%R).
  { pose proof (ln_le_sub1 (/ sg) (Rinv_0_lt_compat sg ltac:(lra))) as L.
    rewrite ln_Rinv in L by lra. lra. }
  assert (M : (sg * ln sg >= sg - 1)%R).
  { apply (Rmult_ge_compat_l sg) in L; [|lra]. replace (sg * (1 - / sg))%R with (sg - 1)%R in L by (field; lra).
    exact L. }
  rewrite EH in F. nra.
Qed.

Lemma gain_two hood y m x : length (classes y) = 2 -> length y = m ->
  (0 <= info_gain hood y m x)%R.
Proof.
  intros H2 Hl. unfold info_gain. rewrite H2.
  destruct (classes y) as [|a [|b [|]]] eqn:E; try discriminate. cbn [map].
  change (rsum [?u; ?v]) with (u + (v + 0))%R. rewrite Rplus_0_r.
  replace (INR 2) with 2%R by (cbn; lra).
  apply two_class_entropy; try apply class_share_pos.
  assert (S : occurs_class hood y m a x + occurs_class hood y m b x = occurs_any hood m x).
  { rewrite <- (sum_two (fun c => occurs_class hood y m c x) a b).
    apply (count_classes (fun i => existsb (Nat.eqb x) (hood i)) (fun i => nth i y 0%Z)).
    - rewrite <- E. apply NoDup_nodup.
    - intros i Hi. rewrite <- E. apply nodup_In, nth_In. lia. }
  unfold class_share. apply (f_equal INR) in S. rewrite plus_INR in S.
  pose proof (pos_INR (occurs_any hood m x)).
  apply Rmult_le_reg_r with (INR (occurs_any hood m x) + 1)%R; [lra|].
  unfold Rdiv. rewrite Rmult_plus_distr_r, !Rmult_assoc, Rinv_l by lra. lra.
Qed.

Theorem C81_supervised_values :
  forall (argsort : list xr -> list nat), argsort_ok argsort ->
  forall (D : arr2 xr) y s rd vect_usage,
    nrow D = ncol D -> 0 < s -> s < nrow D -> finite_off D ->
    length y = nrow D -> 2 <= length (classes y) ->
    exists M (hood : nat -> list nat),
      simhub argsort xln xsum D (Some y) None None (Z.of_nat s) rd vect_usage = Ok M /\
      nrow M = nrow D /\ ncol M = nrow D /\
      (forall i, i < nrow D -> shi_neighbours D (seq 0 (nrow D)) s i (hood i) /\ ~ In i (hood i)) /\
      (forall i, i < nrow D -> at2 M i i = XFin (if rd then 0 else 1)) /\
      forall i j, i < nrow D -> j < nrow D -> i <> j ->
        let sim := sup_sim hood (occurs hood (nrow D)) y (nrow D) s i j in
        at2 M i j = XFin (if rd then 1 - sim else sim)%R /\
        at2 M j i = at2 M i j /\ (sim <= 1)%R /\
        (length (classes y) = 2 -> (0 <= sim)%R).
Proof.
  intros argsort AS D y s rd vu Hsq Hs Hsm Hf Hl Hc.
  destruct (simhub_cells argsort AS D (Some y) None None s rd vu) as (M & HM & HK & R & C & A);
    [lia|exact Hsq|exact I|cbn; lia|assumption|lia|].
  cbn [cols_of shi_rows] in *. rewrite seq_length in R.
  set (hood := shi_hood argsort (Z.of_nat s) (shi_dist D None)) in *.
  assert (NS : forall a, a < nrow D -> ~ In a (hood a)).
  { intros a Ha. eapply (no_self D s a); eauto; [lia|]. intros x Hx Hxa. apply Hf; lia. }
  exists M, hood. split; [exact HM|]. split; [exact R|]. split; [lia|].
  split; [intros i Hi; rewrite Hsq; split; [apply HK|now apply NS]|].
  set (m := ncol D) in *. rewrite Hsq in *.
  assert (Hm : 2 <= m) by lia.
  assert (Lm : (0 < ln (INR m))%R) by (apply ln_gt0; pose proof (INR_ge2 m Hm); lra).
  assert (Lc : (0 < ln (INR (length (classes y))))%R) by (apply ln_gt0; pose proof (INR_ge2 _ Hc); lra).
  assert (Hss : (0 < INR s)%R) by now apply INR_pos.
  assert (Hsc : (0 < INR s * ln (INR m) * ln (INR (length (classes y))))%R).
  { apply Rmult_lt_0_compat; [apply Rmult_lt_0_compat|]; assumption. }
  assert (A' : forall i j, i < m -> j < m -> at2 M i j =
     if i =? j then XFin (if rd then 0 else 1) else
       let sim := sup_sim hood (occurs hood m) y m s i j in
       XFin (if rd then 1 - sim else sim)%R).
  { intros i j Hi Hj. rewrite A by lia. cbv zeta. rewrite row_of_seq by assumption.
    destruct (i =? j); [reflexivity|]. cbn [sh_scale]. rewrite conv_xr by lra.
    replace (sh_sum hood (Some y) m i j) with
      (rsum (map (fun x => (ln (INR m / INR (occurs hood m x)) * info_gain hood y m x)%R) (common (hood i) (hood j))));
      [reflexivity|].
    unfold sh_sum. cbv zeta. apply rsum_ext. intros x Hx. apply common_in in Hx as (Hx & _).
    apply (HK i) in Hx. rewrite occurs_any_S; [reflexivity|assumption|]. now apply NS. }
  split; [intros i Hi; rewrite A' by assumption; now rewrite Nat.eqb_refl|].
  intros i j Hi Hj Hne. cbv zeta. rewrite !A' by assumption. rewrite (Nat.eqb_sym j i).
  apply Nat.eqb_neq in Hne. rewrite Hne. cbv zeta. split; [reflexivity|]. split; [|split].
  - assert (E : sup_sim hood (occurs hood m) y m s j i = sup_sim hood (occurs hood m) y m s i j);
      [|now rewrite E].
    unfold sup_sim. f_equal. apply rsum_perm, Permutation_map.
    apply NoDup_Permutation; [apply NoDup_filter, (HK j)|apply NoDup_filter, (HK i)|].
    intros x. rewrite !common_in. tauto.
  - unfold sup_sim. apply Rmult_le_reg_r with (INR s * ln (INR m) * ln (INR (length (classes y))))%R;
      [assumption|]. unfold Rdiv. rewrite Rmult_assoc, Rinv_l by lra. rewrite Rmult_1_r, Rmult_1_l.
    eapply Rle_trans.
    + apply (rsum_le_bound _ (ln (INR m) * ln (INR (length (classes y))))%R).
      intros x Hx. apply common_in in Hx as (Hx & _). apply (HK i) in Hx.
      pose proof (inform_range m (occurs hood m x) (occurs_pos _ _ _ Hx) (occurs_le _ _ _)) as (I1 & I2).
      pose proof (gain_le hood y m x). nra.
    + rewrite Rmult_assoc. apply Rmult_le_compat_r; [nra|]. apply le_INR. rewrite common_length.
      pose proof (overlap_le (hood i) (hood j)) as L. destruct (HK i) as [K1 _ _ _]. lia.
  - intros H2. unfold sup_sim. apply Rmult_le_pos; [|left; now apply Rinv_0_lt_compat].
    apply rsum_nonneg. intros v Hv. apply in_map_iff in Hv as (x & <- & Hx).
    apply common_in in Hx as (Hx & _). apply (HK i) in Hx.
    apply Rmult_le_pos; [|now apply gain_two].
    apply inform_range; [now apply occurs_pos|apply occurs_le].
Qed.

(** with three classes an evenly shared hub gets a negative information gain:
    distances above 1 *)
Theorem C81_three_classes_out_of_range :
  exists (D : arr2 xr) y,
    length (classes y) = 3 /\ nrow D = ncol D /\ length y = nrow D /\ finite_off D /\
    forall argsort, argsort_ok argsort ->
    exists M v, simhub argsort xln xsum D (Some y) None None 1 true 0 = Ok M /\
      at2 M 0 1 = XFin v /\ (1 < v)%R.
Proof.
  set (near := fun i => nth i [9;9;9;9;9;9;9;9;9;10;11;10] 0).
  set (D := near_matrix 12 12 near).
  set (y := [0;0;0;1;1;1;2;2;2;0;0;0]%Z).
  assert (F : finite_off D).
  { intros i x Hi Hx _. cbn [at2 D near_matrix]. destruct (x =? near i); reflexivity. }
  exists D, y. split; [reflexivity|]. split; [reflexivity|]. split; [reflexivity|]. split; [exact F|].
  intros argsort AS.
  destruct (C81_supervised_values argsort AS D y 1 true 0) as (M & hood & HM & R & C & HK & _ & A);
    [reflexivity|lia|cbn; lia|exact F|reflexivity|cbn; lia|].
  assert (HN : forall i, i < 12 -> near i < 12 -> near i <> i -> hood i = [near i]).
  { intros i Hi Hn Hne. apply (near_matrix_hood 12 12 near (seq 0 12) i); [apply (HK i Hi)|assumption|].
    rewrite seq_nth by assumption. exact Hne. }
  assert (H : map hood (seq 0 12) = map (fun x => [x]) [9;9;9;9;9;9;9;9;9;10;11;10]).
  { cbn [seq map]. repeat (rewrite HN; [|lia|cbn; lia|cbn; lia]). reflexivity. }
  cbn [seq map] in H. injection H as E0 E1 E2 E3 E4 E5 E6 E7 E8 E9 E10 E11.
  exists M. eexists. split; [exact HM|]. split; [apply (A 0 1); cbn; lia|].
  unfold sup_sim. change (nrow D) with 12. rewrite E0, E1.
  cbn [common filter existsb Nat.eqb orb map]. change (rsum [?x]) with (x + 0)%R.
  assert (O : occurs hood 12 9 = 10).
  { unfold occurs. cbn [seq filter Nat.eqb orb]. rewrite E0,E1,E2,E3,E4,E5,E6,E7,E8,E10,E11. reflexivity. }
  assert (OA : occurs_any hood 12 9 = 9).
  { unfold occurs_any. cbn [seq filter]. rewrite E0,E1,E2,E3,E4,E5,E6,E7,E8,E9,E10,E11. reflexivity. }
  assert (OC : forall c, In c [0;1;2]%Z -> occurs_class hood y 12 c 9 = 3).
  { intros c Hc. unfold occurs_class. cbn [seq filter].
    rewrite E0,E1,E2,E3,E4,E5,E6,E7,E8,E9,E10,E11.
    destruct Hc as [<-|[<-|[<-|[]]]]; reflexivity. }
  assert (Cl : Permutation (classes y) [0;1;2]%Z).
  { apply NoDup_Permutation; [apply NoDup_nodup|repeat constructor; cbn; lia|].
    intros c. unfold classes. rewrite nodup_In. cbn. lia. }
  rewrite O. assert (G : (info_gain hood y 12 9 < 0)%R).
  { unfold info_gain. rewrite (Permutation_length Cl). cbn [length].
    rewrite (rsum_ext _ (fun _ => 4 / 10 * ln (4 / 10))%R).
    2:{ intros c Hc. apply (Permutation_in _ Cl) in Hc. unfold class_share. rewrite OC, OA by assumption.
        replace ((INR 3 + 1) / (INR 9 + 1))%R with (4 / 10)%R by (cbn; field). reflexivity. }
    rewrite rsum_const, (Permutation_length Cl). cbn [length].
    replace (INR 3) with 3%R by (cbn; lra).
    assert (E : ln (4 / 10) = (- ln (5 / 2))%R).
    { rewrite <- ln_Rinv by lra. f_equal. field. }
    rewrite E. assert (5 * ln 3 < 6 * ln (5 / 2))%R; [|lra].
    replace 5%R with (INR 5) at 1 by (cbn; lra). replace 6%R with (INR 6) by (cbn; lra).
    rewrite <- !ln_pow by lra. apply ln_increasing; cbn; lra. }
  rewrite (Permutation_length Cl). cbn [length].
  assert (P : (0 < ln (INR 12 / INR 10))%R) by (apply ln_gt0; cbn; lra).
  assert (Q : (0 < INR 1 * ln (INR 12) * ln (INR 3))%R).
  { apply Rmult_lt_0_compat; [apply Rmult_lt_0_compat; [cbn; lra|]|]; apply ln_gt0; cbn; lra. }
  assert (Z : (0 < - (ln (INR 12 / INR 10) * info_gain hood y 12 9) / (INR 1 * ln (INR 12) * ln (INR 3)))%R).
  { apply Rdiv_lt_0_compat; [|exact Q]. nra. }
  rewrite Rplus_0_r. unfold Rdiv in *. lra.
Qed.

(** one class only: every off-diagonal cell is NaN *)
Theorem C81_single_class_nan :
  forall (argsort : list xr -> list nat), argsort_ok argsort ->
  forall (D : arr2 xr) y s rd vect_usage,
    nrow D = ncol D -> 0 < s -> s < nrow D -> length y = nrow D -> length (classes y) = 1 ->
    exists M, simhub argsort xln xsum D (Some y) None None (Z.of_nat s) rd vect_usage = Ok M /\
      forall i j, i < nrow D -> j < nrow D -> i <> j -> at2 M i j = XNaN.
Proof.
  intros argsort AS D y s rd vu Hsq Hs Hsm Hl Hc.
  destruct (simhub_cells argsort AS D (Some y) None None s rd vu) as (M & HM & HK & R & C & A);
    [lia|exact Hsq|exact I|cbn; lia|assumption|lia|].
  cbn [cols_of shi_rows] in *. rewrite seq_length in R.
  set (hood := shi_hood argsort (Z.of_nat s) (shi_dist D None)) in *.
  exists M. split; [exact HM|]. intros i j Hi Hj Hne. rewrite A by lia.
  apply Nat.eqb_neq in Hne. rewrite Hne. cbv zeta. cbn [sh_scale]. rewrite Hc.
  change (INR 1) with 1%R. rewrite ln_1, Rmult_0_r.
  replace (sh_sum hood (Some y) (ncol D) i (row_of ((0 <? vu)%Z || (vu =? 0)%Z && (ncol D <? 2000)) (seq 0 (ncol D)) j))
    with 0%R.
  - unfold conv. cbn [ndiv Num_xr xdiv]. destruct (Req_EM_T 0 0) as [_|H]; [|lra]. unfold rsgn.
    destruct (Rlt_dec 0 0); [lra|]. cbn [xinf_s]. destruct rd; reflexivity.
  - unfold sh_sum. cbv zeta. symmetry.
    assert (G : forall x, info_gain hood y (ncol D) x = 0%R).
    { intros x. unfold info_gain. rewrite Hc. change (INR 1) with 1%R. rewrite ln_1.
      destruct (classes y) as [|c [|]] eqn:E; try discriminate. cbn [map].
      change (rsum [?u]) with (u + 0)%R.
      assert (S : occurs_class hood y (ncol D) c x = occurs_any hood (ncol D) x).
      { pose proof (count_classes (fun i => existsb (Nat.eqb x) (hood i)) (fun i => nth i y 0%Z) (ncol D) [c]) as S.
        cbn [map sum_nat] in S. rewrite Nat.add_0_r in S. apply S.
        - repeat constructor; cbn; tauto.
        - intros k Hk. rewrite <- E. apply nodup_In, nth_In. lia. }
      unfold class_share. rewrite S. pose proof (pos_INR (occurs_any hood (ncol D) x)).
      unfold Rdiv. rewrite Rinv_r by lra. rewrite ln_1. lra. }
    rewrite (rsum_ext _ (fun _ => 0%R)).
    + rewrite rsum_const. ring.
    + intros x _. rewrite G. ring.
Qed.

(** the assertion on the class counts can only fail without any label *)
Theorem C81_assertion_never_fails :
  forall (V : Type) (N : Num V) argsort vln vsum (D : arr2 V) y train test s rd vect_usage,
    y <> Some [] ->
    simhub argsort vln vsum D y train test s rd vect_usage <> Raise AssertionError.
Proof.
  intros V N argsort vln vsum D y train test s rd vu Hy. unfold simhub.
  assert (S : shi_shape D train <> Raise AssertionError).
  { unfold shi_shape, check_distance_matrix_shape, check_sample_shape_fits, check_is_nD_array, guard.
    destruct train; cbn; repeat (match goal with |- context [if ?c then _ else _] => destruct c end; cbn);
      discriminate. }
  destruct (shi_shape D train) as [[]|e]; cbn [bind]; [|intros E; injection E as ->; now apply S].
  unfold guard at 1. destruct ((0 <? s)%Z && (s <? Z.of_nat (ncol D))%Z) eqn:Es; cbn [negb bind]; [|discriminate].
  apply andb_true_iff in Es as (E1 & E2). apply Z.ltb_lt in E1, E2.
  unfold shi_index at 1, guard at 1.
  destruct (match train with None => false | Some t => existsb (fun i => nrow D <=? i) t end); cbn [bind];
    [discriminate|].
  assert (L : sh_label_checks (shi_knn argsort s (shi_dist D train)) y (ncol D) <> Raise AssertionError).
  { destruct y as [l|]; [|discriminate]. rewrite sh_label_checks_ok by lia.
    destruct (_ || _); [discriminate|]. destruct l; [congruence|]. discriminate. }
  destruct (sh_label_checks _ y (ncol D)) as [[]|e]; cbn [bind]; [|intros E; injection E as ->; now apply L].
  unfold shi_index, guard.
  destruct (match test with None => false | Some t => existsb (fun i => nrow D <=? i) t end); discriminate.
Qed.

(* ------------------------------------------------------------------ *)
Example ex_labels : length (classes [3;5;3;3]%Z) = 2 /\ length [3;5;3;3]%Z = nrow exH /\
  length (classes [4;4;4;4]%Z) = 1.
Proof. repeat split. Qed.

Print Assumptions C80_leading_sample_correct.
Print Assumptions C80_any_sample_characterised.
Print Assumptions C80_wrong_occurrence_counts.
Print Assumptions C80_simhub_sample_broken.
Print Assumptions C81_supervised_values.
Print Assumptions C81_three_classes_out_of_range.
Print Assumptions C81_single_class_nan.
Print Assumptions C81_assertion_never_fails.
