(** Property C72: candidate rows made from the answers of an approximate
    nearest neighbour index (sampling_algorithm 'hnsw' or 'lsh').  The index may
    answer anything. *)
From Coq Require Import String.
From Coq Require Import ZArith List Arith Lia Bool Permutation Reals Lra.
From Verif Require Import Py Num NumT NumF32 Arr Sort Conc S_Neighbors S_Approx S_ApproxANN M_Hubness M_Approx M_ApproxANN.
From Verif Require Import P_Approx P_ApproxANN.
Import ListNotations.
Local Open Scope nat_scope.

Lemma map_repeat {A B} (f : A -> B) x n : map f (repeat x n) = repeat (f x) n.
Proof. induction n as [|n IH]; cbn; [reflexivity|]. now rewrite IH. Qed.

(** nmslib's values are squared, or for 'cosine' negated plus one *)
Definition converted {V} {N : Num V} (metric : string) (d : V) : V :=
  if String.eqb metric "cosine" then nadd (nmul d (nofZ (-1))) n1 else nmul d d.

(** HNSW, training objects: works exactly if every answer has 1 to k+1 entries.
    The row of an object lists all answers but the first; missing places repeat
    the last answered index with the largest answered value. *)
Theorem C72_hnsw_fit :
  forall metric k (ans : list (list (nat * f32))),
    ((exists rows, hnsw_filtering metric k ans = Ok rows) <-> forall a, In a ans -> 1 <= length a <= k + 1) /\
    forall rows, hnsw_filtering metric k ans = Ok rows ->
      length rows = length ans /\
      forall i, i < length ans -> exists self others m,
        nth i ans [] = self :: others /\
        fst (nth i rows ([], [])) = extended k (map fst others) (fst (last (self :: others) self)) /\
        snd (nth i rows ([], [])) = map (converted metric) (extended k (map snd others) m) /\
        (no_nan (map snd (self :: others)) -> largest (map snd (self :: others)) m).
Proof.
  intros metric k ans. split.
  - unfold hnsw_filtering. transitivity (exists r, mapM (hnsw_filter_row k) ans = Ok r).
    + split; intros (r & E); destruct (mapM (hnsw_filter_row k) ans); cbn in *; try discriminate; eauto.
    + rewrite mapM_ok_iff. split; intros H a Ha; specialize (H a Ha).
      * destruct H as (r & E). apply hnsw_filter_row_ok in E as (x & l & -> & L & _). cbn. lia.
      * destruct a as [|x l]; [cbn in H; lia|]. cbn [hnsw_filter_row]. unfold guard. cbn [length] in H.
        destruct (Nat.ltb_spec k (length l)); [lia|]. eexists. reflexivity.
  - intros rows E. unfold hnsw_filtering in E. destruct (mapM (hnsw_filter_row k) ans) as [r|e] eqn:M; cbn in E; [|discriminate].
    injection E as <-. destruct (mapM_ok_nth _ _ _ ([], []) M) as (L & H). split; [now rewrite map_length|].
    intros i Hi. specialize (H i [] Hi). apply hnsw_filter_row_ok in H as (x & l & Ea & Hl & E1 & E2).
    exists x, l, (np_max (map snd (nth i ans []))). split; [exact Ea|].
    rewrite (nth_indep _ ([], []) (conv_row metric ([], []))) by (rewrite map_length; lia). rewrite map_nth.
    unfold conv_row. cbn [fst snd]. rewrite E1, E2. split; [now rewrite <- Ea|]. split; [reflexivity|].
    intros Hn. rewrite Ea. apply (np_max_largest f32_cmp); [discriminate|exact Hn].
Qed.

(** HNSW, queries: nothing is dropped. *)
Theorem C72_hnsw_transform :
  forall metric k (ans : list (list (nat * f32))), 1 <= k ->
    ((exists rows, hnsw_trafo metric k ans = Ok rows) <-> forall a, In a ans -> 1 <= length a <= k) /\
    forall rows, hnsw_trafo metric k ans = Ok rows ->
      length rows = length ans /\
      forall i, i < length ans -> exists first rest m,
        let a := first :: rest in
        nth i ans [] = a /\
        fst (nth i rows ([], [])) = extended k (map fst a) (fst (last a first)) /\
        snd (nth i rows ([], [])) = map (converted metric) (extended k (map snd a) m) /\
        (no_nan (map snd a) -> largest (map snd a) m).
Proof.
  intros metric k ans Hk. split.
  - unfold hnsw_trafo. transitivity (exists r, mapM (hnsw_trafo_row k) ans = Ok r).
    + split; intros (r & E); destruct (mapM (hnsw_trafo_row k) ans); cbn in *; try discriminate; eauto.
    + rewrite mapM_ok_iff. split; intros H a Ha; specialize (H a Ha).
      * destruct H as (r & E). apply hnsw_trafo_row_ok in E as (x & l & -> & L & _); [|exact Hk]. cbn in *. lia.
      * destruct a as [|x l]; [cbn in H; lia|]. cbn [hnsw_trafo_row]. unfold guard.
        destruct (Nat.ltb_spec k (length (x :: l))); [lia|]. eexists. reflexivity.
  - intros rows E. unfold hnsw_trafo in E. destruct (mapM (hnsw_trafo_row k) ans) as [r|e] eqn:M; cbn in E; [|discriminate].
    injection E as <-. destruct (mapM_ok_nth _ _ _ ([], []) M) as (L & H). split; [now rewrite map_length|].
    intros i Hi. specialize (H i [] Hi). apply hnsw_trafo_row_ok in H as (x & l & Ea & Hl & E1 & E2); [|exact Hk].
    exists x, l, (np_max (map snd (nth i ans []))). split; [exact Ea|].
    rewrite (nth_indep _ ([], []) (conv_row metric ([], []))) by (rewrite map_length; lia). rewrite map_nth.
    unfold conv_row. cbn [fst snd]. rewrite E1, E2, <- Ea. split; [reflexivity|]. split; [reflexivity|].
    intros Hn. apply (np_max_largest f32_cmp); [rewrite Ea; discriminate|exact Hn].
Qed.

(** DEFECT: an object for which only itself is found becomes its own neighbour,
    k times. *)
Theorem C72_only_self :
  forall metric k (ans : list (list (nat * f32))) rows i self,
    hnsw_filtering metric k ans = Ok rows -> i < length ans -> nth i ans [] = [self] ->
    fst (nth i rows ([], [])) = repeat (fst self) k.
Proof.
  intros metric k ans rows i self E Hi Ha. destruct (C72_hnsw_fit metric k ans) as (_ & H).
  destruct (H rows E) as (_ & Hr). destruct (Hr i Hi) as (x & l & m & A & B & _). rewrite Ha in A. injection A as <- <-.
  rewrite B. unfold extended. cbn. now rewrite Nat.sub_0_r.
Qed.

(** Sorted, nearest first, by distances (ascending) or similarities (descending). *)
Definition ascending (l : list R) : Prop := forall p q, p <= q -> q < length l -> (nth p l 0 <= nth q l 0)%R.
Definition descending (l : list R) : Prop := forall p q, p <= q -> q < length l -> (nth q l 0 <= nth p l 0)%R.

(** DEFECT: with metric='cosine' one of two things is wrong, whichever values the
    index answers.  If they are distances (ascending), the stored distances
    descend: the nearest neighbour gets the largest.  If they are similarities
    (descending), the stored distances ascend, but the padding gets the smallest
    distance of all, not larger than that of any listed neighbour, and
    zero if the object has similarity 1 with itself. *)
Theorem C72_cosine :
  forall k (ans : list (list (nat * xr))) rows i (idx : list nat) (s : list R),
    hnsw_filtering "cosine" k ans = Ok rows -> i < length ans ->
    nth i ans [] = combine idx (map XFin s) -> length idx = length s ->
    exists stored : list R, snd (nth i rows ([], [])) = map XFin stored /\ length stored = k /\
      (forall p, p < length s - 1 -> nth p stored 0%R = (1 - nth (p + 1) s 0)%R) /\
      (ascending s -> descending stored) /\
      (descending s -> ascending (firstn (length s - 1) stored) /\
         forall p, length s - 1 <= p -> p < k ->
           nth p stored 0%R = (1 - nth 0 s 0)%R /\ forall q, q < k -> (nth p stored 0 <= nth q stored 0)%R).
Proof.
  intros k ans rows i idx s E Hi Ha HL. unfold hnsw_filtering in E.
  destruct (mapM (hnsw_filter_row k) ans) as [r|e] eqn:M; cbn in E; [|discriminate].
  injection E as <-. destruct (mapM_ok_nth _ _ _ ([], []) M) as (L & H). specialize (H i [] Hi).
  apply hnsw_filter_row_ok in H as (x & l & Ea & Hl & E1 & E2).
  rewrite (nth_indep _ ([], []) (conv_row "cosine" ([], []))) by (rewrite map_length; lia). rewrite map_nth.
  unfold conv_row. cbn [fst snd]. rewrite E2.
  assert (Sm : map snd (nth i ans []) = map XFin s).
  { rewrite Ha. clear -HL. revert s HL. induction idx as [|a idx IH]; intros [|b s] HL; try discriminate; [reflexivity|].
    cbn. f_equal. apply IH. cbn in HL. lia. }
  destruct s as [|s0 s]; [rewrite Ea in Sm; discriminate|].
  assert (So : map snd l = map XFin s) by (rewrite Ea in Sm; cbn in Sm; now injection Sm).
  assert (Ls : length s = length l) by (apply (f_equal (@length xr)) in So; rewrite !map_length in So; lia).
  rewrite Sm, So.
  assert (NN : no_nan (map XFin (s0 :: s))).
  { intros y Hy. apply in_map_iff in Hy as (z & <- & _). reflexivity. }
  destruct (np_max_largest xr_cmp (map XFin (s0 :: s))) as (Im & Mm); [discriminate|exact NN|].
  apply in_map_iff in Im as (m & Em & Im). rewrite <- Em in Mm. rewrite <- Em.
  assert (Hm : forall z, In z (s0 :: s) -> (z <= m)%R).
  { intros z Hz. specialize (Mm (XFin z) (in_map _ _ _ Hz)). cbn in Mm. destruct (Rle_dec z m); [assumption|discriminate]. }
  exists (map (fun z => (1 - z)%R) (extended k s m)).
  assert (LE : length (extended k s m) = k) by (unfold extended; rewrite app_length, repeat_length; lia).
  assert (NE : forall p, p < k -> nth p (map (fun z => (1 - z)%R) (extended k s m)) 0%R = (1 - (if p <? length s then nth p s 0 else m))%R).
  { intros p Hp. rewrite (nth_indep _ 0%R ((fun z => 1 - z)%R 0%R)) by (rewrite map_length; lia). rewrite map_nth.
    unfold extended. destruct (Nat.ltb_spec p (length s)).
    - now rewrite app_nth1.
    - rewrite app_nth2 by assumption. f_equal. apply (repeat_spec (k - length s) m).
      apply nth_In. rewrite repeat_length. lia. }
  cbn [length]. rewrite Nat.sub_succ, Nat.sub_0_r.
  split; [|split; [now rewrite map_length|split; [|split]]].
  - rewrite !map_map. unfold extended. rewrite !map_app, map_map. rewrite !map_length. f_equal.
    + apply map_ext. intros z. cbn. f_equal. ring.
    + rewrite !map_repeat. f_equal. cbn. f_equal. ring.
  - intros p Hp. rewrite NE by lia. destruct (Nat.ltb_spec p (length s)); [|lia]. now rewrite Nat.add_1_r.
  - intros As p q Hpq Hq. rewrite map_length, LE in Hq. rewrite !NE by lia.
    destruct (Nat.ltb_spec p (length s)); destruct (Nat.ltb_spec q (length s)); try lia.
    + specialize (As (S p) (S q) ltac:(lia) ltac:(cbn; lia)). cbn in As. lra.
    + enough (nth p s 0 <= m)%R by lra. apply Hm. right. now apply nth_In.
    + lra.
  - intros Ds.
    assert (M0 : m = s0).
    { apply Rle_antisym; [|apply Hm; now left]. apply (In_nth _ _ 0%R) in Im as (p & Hp & <-). apply (Ds 0 p); lia. }
    split.
    + intros p q Hpq Hq. rewrite firstn_length, map_length, LE in Hq.
      assert (NF : forall p, p < length s -> nth p (firstn (length s) (map (fun z => (1 - z)%R) (extended k s m))) 0%R = (1 - nth p s 0)%R).
      { intros p' Hp'. rewrite P_Neighbors.nth_firstn_lt by assumption. rewrite (NE p') by lia. destruct (Nat.ltb_spec p' (length s)); [reflexivity|lia]. }
      rewrite !NF by lia. specialize (Ds (S p) (S q) ltac:(lia) ltac:(cbn; lia)). cbn in Ds. lra.
    + intros p Hp Hk. rewrite NE by assumption. destruct (Nat.ltb_spec p (length s)); [lia|]. 
      split; [now rewrite M0|]. intros q Hq. rewrite NE by assumption. destruct (Nat.ltb_spec q (length s)); [|lra].
      enough (nth q s 0 <= m)%R by lra. apply Hm. right. now apply nth_In.
Qed.

(** *** LSH *)
(** the distances LSH rows hold: an unknown metric means squared Euclidean *)
Definition meant (metric : string) : string :=
  if known_metric metric then metric else "sqeuclidean"%string.

Section LSHRows.
  Variable sdist : string -> nat -> (nat -> f32) -> (nat -> f32) -> f32.
  Lemma lsh_pad_shape k knn (ds old : list f32) r : length old = k -> length ds <= length knn -> length knn <= k ->
    lsh_pad k knn ds old = Ok r -> length (fst r) = k /\ length (snd r) = k.
  Proof.
    intros Lo Ld Lk. unfold lsh_pad. destruct (Nat.ltb_spec (length knn) k).
    - destruct knn as [|a l] eqn:Ek; [discriminate|]. rewrite <- Ek in *. intros E. injection E as <-. cbn [fst snd].
      unfold pad. rewrite !app_length, !repeat_length, firstn_length, app_length, skipn_length. lia.
    - intros E. injection E as <-. cbn [fst snd]. rewrite app_length, skipn_length. lia.
  Qed.
  (** a row with zero-initialised buffer *)
  Lemma lsh_pad_zeros k knn (ds : list f32) r : knn <> [] -> length ds = length knn -> length knn <= k ->
    no_nan ds -> (forall x, In x ds -> nle n0 x = true) ->
    lsh_pad k knn ds (repeat n0 k) = Ok r ->
    exists m, largest ds m /\ fst r = extended k knn (last knn 0) /\ snd r = extended k ds m.
  Proof.
    intros Hk Ld Lk Hn H0 E.
    assert (Hd : ds <> []) by (intros ->; destruct knn; [contradiction|discriminate Ld]).
    exists (np_max ds). split; [now apply (np_max_largest f32_cmp)|]. revert E. unfold lsh_pad.
    assert (Sk : skipn (length ds) (repeat (n0 : f32) k) = repeat n0 (k - length ds)).
    { rewrite Ld. replace k with (length knn + (k - length knn)) at 1 by lia. rewrite repeat_app, skipn_app, skipn_all2, repeat_length, Nat.sub_diag.
      - reflexivity.
      - rewrite repeat_length. lia. }
    rewrite Sk. destruct (Nat.ltb_spec (length knn) k).
    - destruct knn as [|a l] eqn:Ek; [contradiction|]. rewrite <- Ek in *. intros E. injection E as <-. cbn [fst snd].
      split; [reflexivity|]. unfold extended. rewrite (np_max_zeros f32_cmp) by assumption. rewrite Ld. f_equal.
      rewrite firstn_app, <- Ld, Nat.sub_diag, firstn_all. cbn. apply app_nil_r.
    - intros E. injection E as <-. cbn [fst snd]. unfold extended. rewrite Ld. replace (k - length knn) with 0 by lia. cbn [repeat]. now rewrite !app_nil_r.
  Qed.
  Lemma lsh_dists_ok metric (Xt : arr2 f32) x raw knn ds : lsh_dists sdist metric Xt x raw knn = Ok ds ->
    raw <> [] /\ knn <> [] /\ ds = map (fun a => sdist metric (ncol Xt) x (at2 Xt a)) knn.
  Proof.
    unfold lsh_dists. destruct raw as [|a raw]; [discriminate|]. unfold guard.
    destruct (Nat.eqb_spec (length knn) 0) as [L|L]; cbn [bind]; [discriminate|]. intros E. injection E as <-.
    split; [discriminate|]. split; [|reflexivity]. intros ->. now apply L.
  Qed.
  Lemma lsh_dists_is metric (Xt : arr2 f32) x raw knn : raw <> [] -> knn <> [] ->
    lsh_dists sdist metric Xt x raw knn = Ok (map (fun a => sdist metric (ncol Xt) x (at2 Xt a)) knn).
  Proof.
    intros Hr Hk. unfold lsh_dists. destruct raw; [contradiction|]. unfold guard. destruct knn; [contradiction|]. reflexivity.
  Qed.
End LSHRows.

(** LSH with several workers, training objects: for every schedule, the row lists
    the answers but the first, and missing places repeat the last index with the
    largest distance. *)
Theorem C72_lsh_fit_pool :
  forall sdist metric k n_jobs (X : arr2 f32) ans rows,
    lsh_filtering sdist metric k n_jobs X ans (Ok rows) -> n_jobs <> 1%Z ->
    length rows = nrow X /\
    forall i, i < nrow X -> exists self nb,
      let ds := map (fun a => sdist (meant metric) (ncol X) (at2 X i) (at2 X a)) nb in
      nth i ans [] = self :: nb /\ 1 <= length nb <= k /\
      (no_nan ds -> (forall d, In d ds -> nle n0 d = true) ->
       exists m, largest ds m /\ nth i rows ([], []) = (extended k nb (last nb 0), extended k ds m)).
Proof.
  intros sdist metric k nj X ans rows H Hj. inversion H as [old Hj'|r _ HP]; [contradiction|]. subst r.
  apply pool_rows_fun in HP.
  2:{ intros r Ir. apply in_map_iff in Ir as (i & Er & _). unfold lsh_filter_pool_row, guard in Er.
      destruct (Nat.ltb_spec k (length (tl (nth i ans [])))); cbn [bind] in Er; [discriminate|].
      destruct (lsh_dists _ _ _ _ _ _) as [ds|e] eqn:Ed; cbn [bind] in Er; [|discriminate].
      apply lsh_dists_ok in Ed as (_ & _ & ->). apply lsh_pad_shape in Er; auto; [apply repeat_length|rewrite map_length; lia]. }
  destruct (mapM_ok_nth _ _ _ ([], []) HP) as (L & Hn). rewrite map_length, seq_length in L, Hn. split; [exact L|].
  intros i Hi. specialize (Hn i (Raise ValueError) Hi). rewrite nth_map_seq in Hn by exact Hi.
  unfold lsh_filter_pool_row, guard in Hn.
  destruct (Nat.ltb_spec k (length (tl (nth i ans [])))); cbn [bind] in Hn; [discriminate|].
  destruct (lsh_dists _ _ _ _ _ _) as [ds|e] eqn:Ed; cbn [bind] in Hn; [|discriminate].
  apply lsh_dists_ok in Ed as (Hr & Hk & ->). destruct (nth i ans []) as [|self nb]; [contradiction|]. cbn [tl] in *.
  exists self, nb. cbv zeta. split; [reflexivity|]. split; [destruct nb; [contradiction|]; cbn in *; lia|].
  intros NN NZ. apply lsh_pad_zeros in Hn; auto; [|now rewrite map_length].
  destruct Hn as (m & A & B & C). exists m. split; [exact A|]. rewrite <- B. unfold meant. rewrite <- C. now destruct (nth i rows ([], [])).
Qed.

(** Several workers: with 2 to k+1 answers for every object all runs succeed, and
    runs exist. *)
Theorem C72_lsh_fit_pool_runs :
  forall sdist metric k n_jobs (X : arr2 f32) ans,
    n_jobs <> 1%Z -> (forall i, i < nrow X -> 2 <= length (nth i ans []) <= k + 1) ->
    (exists r, lsh_filtering sdist metric k n_jobs X ans r) /\
    forall r, lsh_filtering sdist metric k n_jobs X ans r -> exists rows, r = Ok rows.
Proof.
  intros sdist metric k nj X ans Hj Ha. split.
  - destruct (pool_rows_ex k (map (fun i => lsh_filter_pool_row sdist metric k X i (nth i ans [])) (seq 0 (nrow X)))) as (r & H).
    exists r. now apply lf_pool.
  - intros r H. destruct H as [old Hj'|r _ HP]; [contradiction|]. destruct HP as [e I|rs buf _ _]; [|eauto]. exfalso.
    apply in_map_iff in I as (i & E & Ii). apply in_seq in Ii. specialize (Ha i ltac:(lia)).
    unfold lsh_filter_pool_row, guard in E. destruct (nth i ans []) as [|self nb]; [cbn in Ha; lia|]. cbn [tl length] in *.
    destruct (Nat.ltb_spec k (length nb)); [lia|]. cbn [bind] in E.
    assert (Hnb : nb <> []) by (intros ->; cbn in Ha; lia).
    rewrite lsh_dists_is in E by (discriminate || exact Hnb). cbn [bind] in E. unfold lsh_pad in E.
    destruct (Nat.ltb_spec (length nb) k); destruct nb; try contradiction; discriminate.
Qed.

(** ... and queries *)
Theorem C72_lsh_transform_pool :
  forall sdist metric k n_jobs (Xt X : arr2 f32) ans rows,
    lsh_trafo sdist metric k n_jobs Xt X ans (Ok rows) -> n_jobs <> 1%Z ->
    length rows = nrow X /\
    forall i, i < nrow X ->
      let nb := nth i ans [] in
      let ds := map (fun a => sdist (meant metric) (ncol Xt) (at2 X i) (at2 Xt a)) nb in
      1 <= length nb <= k /\
      (no_nan ds -> (forall d, In d ds -> nle n0 d = true) ->
       exists m, largest ds m /\ nth i rows ([], []) = (extended k nb (last nb 0), extended k ds m)).
Proof.
  intros sdist metric k nj Xt X ans rows H Hj. inversion H as [old Hj'|r _ HP]; [contradiction|]. subst r.
  apply pool_rows_fun in HP.
  2:{ intros r Ir. apply in_map_iff in Ir as (i & Er & _). unfold lsh_trafo_pool_row, guard in Er.
      destruct (lsh_dists _ _ _ _ _ _) as [ds|e] eqn:Ed; cbn [bind] in Er; [|discriminate].
      destruct (Nat.ltb_spec k (length (nth i ans []))); cbn [bind] in Er; [discriminate|].
      apply lsh_dists_ok in Ed as (_ & _ & ->). apply lsh_pad_shape in Er; auto; [apply repeat_length|rewrite map_length; lia]. }
  destruct (mapM_ok_nth _ _ _ ([], []) HP) as (L & Hn). rewrite map_length, seq_length in L, Hn. split; [exact L|].
  intros i Hi. specialize (Hn i (Raise ValueError) Hi). rewrite nth_map_seq in Hn by exact Hi.
  unfold lsh_trafo_pool_row, guard in Hn.
  destruct (lsh_dists _ _ _ _ _ _) as [ds|e] eqn:Ed; cbn [bind] in Hn; [|discriminate].
  destruct (Nat.ltb_spec k (length (nth i ans []))); cbn [bind] in Hn; [discriminate|].
  apply lsh_dists_ok in Ed as (Hr & Hk & ->). cbv zeta.
  split; [destruct (nth i ans []); [contradiction|]; cbn in *; lia|].
  intros NN NZ. apply lsh_pad_zeros in Hn; auto; [|now rewrite map_length].
  destruct Hn as (m & A & B & C). exists m. split; [exact A|]. rewrite <- B. unfold meant. rewrite <- C. now destruct (nth i rows ([], [])).
Qed.

(** DEFECT: with one worker the padding is taken from uninitialised memory.
    Whatever value [v i] exceeds the distances found, and NaN, can appear as the
    distance of the missing neighbours. *)
Theorem C72_lsh_serial_padding :
  forall sdist metric k (X : arr2 f32) ans (v : nat -> f32),
    (metric = "sqeuclidean" \/ metric = "cosine")%string ->
    let ds i := map (fun a => sdist metric (ncol X) (at2 X i) (at2 X a)) (tl (nth i ans [])) in
    (forall i, i < nrow X -> 2 <= length (nth i ans []) <= k) ->
    (forall i, i < nrow X -> v i = nnan \/ forall d, In d (ds i) -> nlt d (v i) = true) ->
    exists rows, lsh_filtering sdist metric k 1 X ans (Ok rows) /\
      forall i, i < nrow X ->
        nth i rows ([], []) = (extended k (tl (nth i ans [])) (last (tl (nth i ans [])) 0), extended k (ds i) (v i)).
Proof.
  intros sdist metric k X ans v Hm ds Ha Hv.
  assert (KM : known_metric metric = true) by (unfold known_metric; destruct Hm as [->| ->]; reflexivity).
  pose (res := map (fun i => (extended k (tl (nth i ans [])) (last (tl (nth i ans [])) 0), extended k (ds i) (v i))) (seq 0 (nrow X))).
  exists res. split.
  - assert (E : mapM (fun i => lsh_filter_serial_row sdist metric k X (repeat (v i) k) i (nth i ans [])) (seq 0 (nrow X)) = Ok res).
    { unfold res. assert (H : forall i, In i (seq 0 (nrow X)) -> lsh_filter_serial_row sdist metric k X (repeat (v i) k) i (nth i ans []) =
         Ok (extended k (tl (nth i ans [])) (last (tl (nth i ans [])) 0), extended k (ds i) (v i))).
      { intros i Ii. apply in_seq in Ii. assert (Hi : i < nrow X) by lia. specialize (Ha i Hi). specialize (Hv i Hi).
        unfold lsh_filter_serial_row. rewrite KM. fold (ds i) in Hv. unfold ds in *. clear ds res.
        destruct (nth i ans []) as [|self nb]; [cbn in Ha; lia|]. cbn [tl length] in *.
        unfold guard. destruct (Nat.ltb_spec k (length nb)); [lia|]. cbn [bind].
        assert (Hnb : nb <> []) by (intros ->; cbn in Ha; lia).
        rewrite lsh_dists_is by (discriminate || exact Hnb). cbn [bind]. unfold lsh_pad.
        set (dl := map _ nb). assert (Ld : length dl = length nb) by (unfold dl; apply map_length).
        destruct (Nat.ltb_spec (length nb) k) as [Hl|Hl]; [|lia].
        assert (Sk : skipn (length dl) (repeat (v i) k) = repeat (v i) (S (k - length nb - 1))).
        { rewrite Ld. replace k with (length nb + S (k - length nb - 1)) at 1 by lia. rewrite repeat_app, skipn_app, skipn_all2, repeat_length, Nat.sub_diag.
          - reflexivity.
          - rewrite repeat_length. lia. }
        rewrite Sk.
        assert (Em : np_max (dl ++ repeat (v i) (S (k - length nb - 1))) = v i).
        { destruct Hv as [->|Hv].
          - now apply np_max_nan.
          - apply (np_max_old f32_cmp); [|exact Hv]. intros C. apply (f_equal (@length f32)) in C. rewrite Ld in C. destruct nb; [contradiction|discriminate]. }
        rewrite Em. destruct nb as [|b nb'] eqn:En; [contradiction|]. rewrite <- En in *. f_equal. f_equal.
        unfold extended. rewrite Ld. f_equal. rewrite firstn_app, <- Ld, Nat.sub_diag, firstn_all. cbn [firstn]. apply app_nil_r. }
      revert H. generalize (seq 0 (nrow X)). intros l H. induction l as [|i l IH]; cbn; [reflexivity|].
      rewrite (H i (or_introl eq_refl)). cbn [bind]. rewrite IH by (intros j Hj; apply H; now right). reflexivity. }
    rewrite <- E. apply (lf_serial sdist metric k 1 X ans (fun i => repeat (v i) k)); [reflexivity|]. intros i. apply repeat_length.
  - intros i Hi. unfold res. now rewrite nth_map_seq.
Qed.

(** DEFECT: with one worker and metric='precomputed' no distance is written: the
    distances of all training rows are arbitrary. *)
Theorem C72_lsh_serial_precomputed :
  forall sdist k (X : arr2 f32) ans (w : nat -> list f32),
    (forall i, i < nrow X -> length (nth i ans []) = k + 1) -> (forall i, length (w i) = k) ->
    exists rows, lsh_filtering sdist "precomputed" k 1 X ans (Ok rows) /\
      forall i, i < nrow X -> nth i rows ([], []) = (tl (nth i ans []), w i).
Proof.
  intros sdist k X ans w Ha Hw.
  pose (res := map (fun i => (tl (nth i ans []), w i)) (seq 0 (nrow X))). exists res. split.
  - assert (E : mapM (fun i => lsh_filter_serial_row sdist "precomputed" k X (w i) i (nth i ans [])) (seq 0 (nrow X)) = Ok res).
    { unfold res. assert (H : forall i, In i (seq 0 (nrow X)) -> lsh_filter_serial_row sdist "precomputed" k X (w i) i (nth i ans []) = Ok (tl (nth i ans []), w i)).
      { intros i Ii. apply in_seq in Ii. specialize (Ha i ltac:(lia)). unfold lsh_filter_serial_row.
        change (known_metric "precomputed") with false. cbv iota.
        destruct (nth i ans []) as [|self nb]; [cbn in Ha; lia|]. cbn [tl length] in *.
        unfold guard. destruct (Nat.ltb_spec k (length nb)); [lia|]. cbn [bind]. unfold lsh_pad. cbn [length skipn app].
        destruct (Nat.ltb_spec (length nb) k); [lia|]. reflexivity. }
      revert H. generalize (seq 0 (nrow X)). intros l H. induction l as [|i l IH]; cbn; [reflexivity|].
      rewrite (H i (or_introl eq_refl)). cbn [bind]. rewrite IH by (intros j Hj; apply H; now right). reflexivity. }
    rewrite <- E. apply (lf_serial sdist "precomputed" k 1 X ans w); [reflexivity|exact Hw].
  - intros i Hi. unfold res. now rewrite nth_map_seq.
Qed.

(** HNSW: an answer with fewer than k+1 entries *)
Example ex_C72_hnsw :
  exists rows, hnsw_filtering "sqeuclidean" 3 [[(0, f32_of (nofZ 0)); (2, f32_of (nofZ 2))]; [(1, f32_of (nofZ 0))]] = Ok rows /\
    fst (nth 0 rows ([], [])) = [2; 2; 2] /\ fst (nth 1 rows ([], [])) = [1; 1; 1].
Proof. eexists. split; [reflexivity|]. split; reflexivity. Qed.
Example ex_C72_cosine :
  exists rows, hnsw_filtering "cosine" 2 [combine [0; 1] (map XFin [1; 1/2]%R)] = Ok rows /\ descending [1; 1/2]%R /\
    ascending [0; 1/2]%R.
Proof.
  eexists. split; [reflexivity|]. split.
  - intros [|[|p]] [|[|q]] H1 H2; cbn in *; lra || lia.
  - intros [|[|p]] [|[|q]] H1 H2; cbn in *; lra || lia.
Qed.
Example ex_C72_lsh :
  let X : arr2 f32 := Arr2 3 1 (fun i _ => f32_of (nofnat i)) in
  let sdist (_ : string) (_ : nat) (u v : nat -> f32) := if nlt (u 0) (v 0) then nsub (v 0) (u 0) else nsub (u 0) (v 0) in
  let ans := [[0; 1]; [1; 0]; [2; 1]] in
  (exists rows, lsh_filtering sdist "sqeuclidean" 3 1 X ans (Ok rows)) /\
  forall i, i < 3 -> nlt (nth 0 (map (fun a => sdist "sqeuclidean"%string 1 (at2 X i) (at2 X a)) (tl (nth i ans []))) nnan) (f32_of (nofZ 1000)) = true.
Proof.
  intros X sdist ans.
  assert (B : forall i, i < 3 -> nlt (nth 0 (map (fun a => sdist "sqeuclidean"%string 1 (at2 X i) (at2 X a)) (tl (nth i ans []))) nnan) (f32_of (nofZ 1000)) = true).
  { intros [|[|[|i]]] Hi; try lia; vm_compute; reflexivity. }
  split; [|exact B].
  destruct (C72_lsh_serial_padding sdist "sqeuclidean" 3 X ans (fun _ => f32_of (nofZ 1000))) as (rows & H & _); [now left| | |eauto].
  - intros [|[|[|i]]] Hi; cbn in *; lia.
  - intros i Hi. right. specialize (B i Hi). intros d Hd. destruct i as [|[|[|i]]]; cbn [nrow X] in Hi; try lia; cbn [ans nth tl map In] in Hd, B; destruct Hd as [<-|[]]; exact B.
Qed.

Print Assumptions C72_hnsw_fit.
Print Assumptions C72_hnsw_transform.
Print Assumptions C72_only_self.
Print Assumptions C72_cosine.
Print Assumptions C72_lsh_fit_pool.
Print Assumptions C72_lsh_fit_pool_runs.
Print Assumptions C72_lsh_transform_pool.
Print Assumptions C72_lsh_serial_padding.
Print Assumptions C72_lsh_serial_precomputed.
