(** Properties C122-C123: predict (knn_classification.py:257-449): confusion
    matrices, agreement with score, sparse input. *)
From Coq Require Import String.
From Coq Require Import ZArith List Arith Lia Bool Permutation.
From Verif Require Import Py Num Arr Sort Conc S_Neighbors S_KNN S_SNN M_IO M_GK M_SNN M_KNN M_LS M_MPEmpiric M_SNNSample M_LSSparse M_Predict.
From Verif Require Import P_Neighbors P_F64 P_GK P_GK2 P_KNN P_KNN2 P_KNN3 P_KNN4 P_ApproxANN P_Predict.
Import ListNotations.
Local Open Scope nat_scope.

(** ** C122 (1): for every k and every output the confusion matrix counts the
    returned predictions: entry (a, b) is the number of objects whose label is
    the a-th distinct label and whose prediction is b. *)
Theorem C122_confusion_matrix_counts :
  forall (argsort : list f64 -> list nat) rp sh (A : matarg f64) target ks metric test sample c cl y cm,
    predict_full argsort rp sh A target ks metric test sample = Ok (y, cm) ->
    (forall r, In r target -> length r = c) -> distinct_sorted (concat target) cl ->
    length y = nrow (dense_of A) /\
    (forall i, i < length y -> length (nth i y []) = length ks /\
       forall j, j < length ks -> length (nth j (nth i y []) []) = c) /\
    forall j l a b, j < length ks -> l < c -> a < length cl ->
      cm j l a b = length (filter (fun i => (nth l (nth i target []) 0 =? nth a cl 0)%Z
                                          && (nth l (nth j (nth i y []) []) 0 =? b))
                                  (seq 0 (length y))).
Proof.
  intros argsort rp sh A target ks metric test sample c cl y cm E Hc Hcl.
  rewrite (distinct_unique _ _ Hcl). clear Hcl cl.
  rewrite predict_full_eq in E.
  2:{ destruct A, sample; try exact I. cbn in E. discriminate. }
  destruct (predict argsort rp sh (dense_of A) target ks metric test sample) as [y'|e] eqn:Ey; [|discriminate].
  cbn [bind] in E. injection E as -> <-.
  set (n := nrow (dense_of A)) in *.
  assert (HY : length y = n /\ n <= length target /\
    forall i, i < n -> length (nth i y []) = length ks /\
       forall j, j < length ks -> length (nth j (nth i y []) []) = c).
  { unfold predict in Ey. fold n in Ey.
    destruct (match sample with None => _ | Some _ => _ end) as [[]|e]; [|discriminate]. cbn [bind] in Ey.
    destruct (check_valid_metric_parameter metric) as [[]|e]; [|discriminate]. cbn [bind] in Ey.
    destruct (guard _ UnboundLocalError) as [[]|e]; [|discriminate]. cbn [bind] in Ey.
    destruct (Nat.ltb_spec (length target) n) as [|HT]; [discriminate|]. cbn [guard bind] in Ey.
    destruct (guard _ IndexError) as [[]|e]; [|discriminate]. cbn [bind] in Ey. cbv zeta in Ey.
    destruct (mapM_ok_nth _ _ _ [] Ey) as (L & H). rewrite seq_length in L, H.
    split; [exact L|]. split; [exact HT|]. intros i Hi. specialize (H i 0 Hi). rewrite seq_nth in H by assumption.
    destruct (mapM_ok_nth _ _ _ [] H) as (L' & H'). rewrite voters_length in L', H'. split; [exact L'|].
    intros j Hj. specialize (H' j [] Hj). apply mapM_length in H'. rewrite seq_length in H'.
    rewrite H'. apply Hc, nth_In. lia. }
  destruct HY as (L & HT & HY).
  split; [exact L|]. split; [intros i Hi; apply HY; lia|].
  intros j l a b Hj Hl Ha. rewrite <- L. rewrite fold_count. unfold cmat0. cbn [Nat.add].
  f_equal. apply filter_ext_in. intros i Hi. apply in_seq in Hi. rewrite Nat.sub_0_r.
  destruct (HY i ltac:(lia)) as (L1 & L2). rewrite L1, L2 by assumption.
  replace (j <? length ks) with true by (symmetry; apply Nat.ltb_lt; assumption).
  replace (l <? c) with true by (symmetry; apply Nat.ltb_lt; assumption). cbn [andb].
  assert (Hit : i < length target) by lia.
  assert (Lc : length (nth i target []) = c) by (apply Hc, nth_In; assumption).
  replace (nth l (nth i (map (map (class_index (unique_labels (concat target)))) target) []) 0)
    with (class_index (unique_labels (concat target)) (nth l (nth i target []) 0%Z)).
  2:{ rewrite (nth_map_in (map (class_index (unique_labels (concat target)))) target i [] []) by assumption.
      symmetry. apply nth_map_in. lia. }
  f_equal.
  assert (In (nth l (nth i target []) 0%Z) (unique_labels (concat target)))
    by (apply unique_In, nth_concat; lia).
  destruct (Nat.eqb_spec (class_index (unique_labels (concat target)) (nth l (nth i target []) 0%Z)) a) as [<-|Hne].
  - rewrite class_index_nth by assumption. symmetry. apply Z.eqb_refl.
  - symmetry. apply Z.eqb_neq. intros E'. apply Hne. rewrite E'. apply class_index_of_nth; [apply unique_NoDup|assumption].
Qed.

(** ** C122 (2): leave-one-out predict always returns for positive k, and its
    confusion matrices are consistent: rows sum to the class sizes, everything
    to the number of objects, and nothing is counted outside. *)
Theorem C122_confusion_matrix_sums :
  forall argsort, argsort_ok argsort ->
  forall rp, (forall i l, Permutation (rp i l) l) ->
  forall sh, (forall (i j : nat) l, Permutation (sh i j l) l) ->
  forall (D : arr2 f64) target ks metric c cl,
    nrow D = ncol D -> length target = nrow D -> valid_metric metric = true ->
    (forall r, In r target -> length r = c) -> (forall k, In k ks -> (0 < k)%Z) ->
    distinct_sorted (concat target) cl ->
    exists y cm, predict_full argsort rp sh (MDense D) target ks metric None None = Ok (y, cm) /\
      forall j l, j < length ks -> l < c ->
        (forall a, a < length cl -> sum_nat (map (cm j l a) (seq 0 (length cl))) =
           length (filter (fun i => (nth l (nth i target []) 0 =? nth a cl 0)%Z) (seq 0 (nrow D)))) /\
        sum_nat (map (fun a => sum_nat (map (cm j l a) (seq 0 (length cl)))) (seq 0 (length cl))) = nrow D /\
        (forall a b, a < length cl -> length cl <= b -> cm j l a b = 0).
Proof.
  intros argsort AS rp RP sh SH D target ks metric c cl Hsq HT Hv Hc Hk Hcl.
  destruct (predict_elected f64_cmp argsort AS rp RP sh SH D target ks metric c Hsq ltac:(lia) Hv)
    as (y & Ey & Ly & Hy).
  { intros x Hx. apply Hc, nth_In, Hx. } { assumption. }
  pose proof (distinct_unique _ _ Hcl) as Ecl. subst cl.
  set (cl' := unique_labels (concat target)) in *.
  pose proof (predict_full_eq argsort rp sh (MDense D) target ks metric None None I) as E.
  cbn [dense_of] in E. rewrite Ey in E. cbn [bind] in E.
  match type of E with _ = Ok (_, ?m) => set (cm := m) in E end.
  exists y, cm. split; [exact E|].
  destruct (C122_confusion_matrix_counts _ _ _ _ _ _ _ _ _ _ _ _ _ E Hc Hcl) as (_ & _ & Hcnt).
  intros j l Hj Hl.
  assert (Cn : forall a b, a < length cl' ->
    cm j l a b = cnt (fun i => (nth l (nth i target []) 0 =? nth a cl' 0)%Z
                                          && (nth l (nth j (nth i y []) []) 0 =? b)) (seq 0 (nrow D))).
  { intros a b Ha. rewrite Hcnt by assumption. rewrite Ly. reflexivity. }
  assert (RG : forall i, i < nrow D -> nth l (nth j (nth i y []) []) 0 < length cl').
  { intros i Hi. destruct (Hy i Hi) as (_ & H). destruct (H j Hj) as (_ & H2). now apply H2. }
  assert (ND : NoDup cl') by apply unique_NoDup.
  assert (Rows : forall a, a < length cl' -> sum_nat (map (cm j l a) (seq 0 (length cl'))) =
           cnt (fun i => (nth l (nth i target []) 0 =? nth a cl' 0)%Z) (seq 0 (nrow D))).
  { intros a Ha.
    rewrite <- (sum_classes cl' (fun i => (nth l (nth i target []) 0 =? nth a cl' 0)%Z)
       (fun i => nth (nth l (nth j (nth i y []) []) 0) cl' 0%Z) (seq 0 (nrow D)) ND).
    - apply sum_nat_ext. intros b Hb. apply in_seq in Hb. rewrite Cn by assumption.
      unfold cnt. f_equal. apply filter_ext_in. intros i Hi. apply in_seq in Hi. f_equal.
      destruct (Nat.eqb_spec (nth l (nth j (nth i y []) []) 0) b) as [->|Hne].
      + symmetry. apply Z.eqb_refl.
      + symmetry. apply Z.eqb_neq. intros E'. apply Hne.
        apply (proj1 (NoDup_nth cl' 0%Z) ND); auto; [apply RG; lia|lia].
    - intros i Hi _. apply in_seq in Hi. apply nth_In, RG. lia. }
  split; [exact Rows|]. split.
  - rewrite (sum_nat_ext _ (fun a => cnt (fun i => true && (nth l (nth i target []) 0 =? nth a cl' 0)%Z) (seq 0 (nrow D))))
      by (intros a Ha; apply in_seq in Ha; rewrite Rows by lia; reflexivity).
    rewrite sum_classes; [|assumption|].
    + unfold cnt. rewrite filter_true_in by reflexivity. apply seq_length.
    + intros i Hi _. apply in_seq in Hi. apply unique_In, nth_concat; [lia|].
      rewrite (Hc (nth i target [])) by (apply nth_In; lia). assumption.
  - intros a b Ha Hb. rewrite Cn by assumption. unfold cnt.
    rewrite (filter_ext_in _ (fun _ => false)); [clear; induction (seq 0 (nrow D)); auto|].
    intros i Hi. apply in_seq in Hi. specialize (RG i ltac:(lia)).
    replace (nth l (nth j (nth i y []) []) 0 =? b) with false by (symmetry; apply Nat.eqb_neq; lia).
    apply andb_false_r.
Qed.

(** ** C122 (3): for a single column of labels, positive k and the same random
    choices, the confusion matrices of predict are those of score, and score's
    correctness flags say which predictions of predict are right. *)
Theorem C122_predict_agrees_with_score :
  forall argsort, argsort_ok argsort ->
  forall rp, (forall i l, Permutation (rp i l) l) ->
  forall sh, (forall (i j : nat) l, Permutation (sh i j l) l) ->
  forall (D : arr2 f64) lab ks metric cl,
    nrow D = ncol D -> length lab = nrow D -> valid_metric metric = true ->
    (forall k, In k ks -> (0 < k)%Z) -> distinct_sorted lab cl ->
    exists out y cm,
      score argsort rp sh D lab ks metric None None = Ok out /\
      predict_full argsort rp sh (MDense D) (map (fun t => [t]) lab) ks metric None None = Ok (y, cm) /\
      forall j s, nth_error out j = Some s ->
        (forall a b, a < length cl -> b < length cl -> k_cmat s a b = cm j 0 a b) /\
        (forall i, i < nrow D -> k_corr s i = (nth i lab 0 =? nth (nth 0 (nth j (nth i y []) []) 0%nat) cl 0)%Z).
Proof.
  intros argsort AS rp RP sh SH D lab ks metric cl Hsq HL Hv Hk Hcl.
  assert (Ct : concat (map (fun t : Z => [t]) lab) = lab).
  { clear. induction lab as [|t l IH]; [reflexivity|]. cbn. now rewrite IH. }
  assert (Lt : length (map (fun t : Z => [t]) lab) = nrow D) by now rewrite map_length.
  assert (Hc : forall r, In r (map (fun t : Z => [t]) lab) -> length r = 1).
  { intros r Hr. apply in_map_iff in Hr as (t & <- & _). reflexivity. }
  destruct (predict_loo f64_cmp argsort AS rp RP sh SH D (map (fun t => [t]) lab) ks metric 1 Hsq ltac:(lia) Hv)
    as (y & Ey & Ly & Hy).
  { intros x Hx. apply Hc, nth_In, Hx. } { assumption. }
  rewrite Ct in Hy.
  pose proof (distinct_unique _ _ Hcl) as Ecl. subst cl. set (cl := unique_labels lab) in *.
  pose proof (predict_full_eq argsort rp sh (MDense D) (map (fun t => [t]) lab) ks metric None None I) as E.
  cbn [dense_of] in E. rewrite Ey in E. cbn [bind] in E.
  match type of E with _ = Ok (_, ?m) => set (cm := m) in E end.
  rewrite <- Ct in Hcl.
  destruct (C122_confusion_matrix_counts _ _ _ _ _ _ _ _ _ _ _ _ _ E Hc Hcl) as (_ & _ & Hcnt).
  set (vcl := map (class_index cl) lab).
  assert (Hpt : forall i, In i (seq 0 (nrow D)) -> i < length lab) by (intros i Hi; apply in_seq in Hi; lia).
  assert (Hnd : NoDup (seq 0 (nrow D))) by apply seq_NoDup.
  assert (Hvc : forall x, In x (seq 0 (nrow D)) -> nth x vcl 0 = class_index cl (nth x lab 0%Z) /\
       In (nth x lab 0%Z) cl) by (intros x Hx; apply loo_vc; now rewrite HL).
  destruct (m_describes f64_cmp argsort AS rp RP sh SH metric false D lab ks (nrow D) _ vcl _ _ Hpt Hnd Hvc) as (L & Hd).
  eexists. exists y, cm. split; [now apply (score_loo argsort rp sh)|]. split; [exact E|].
  intros j s Hs. destruct (Hd j s Hs) as ([D1 D2 D3 D4] & _).
  assert (Hj : j < length ks)
    by (rewrite <- L; apply nth_error_Some; intros E0; discriminate (eq_trans (eq_sym Hs) E0)).
  assert (EP : forall i, i < nrow D ->
     m_pred argsort rp sh metric false D lab ks vcl (seq 0 (nrow D)) j i
     = nth (nth 0 (nth j (nth i y []) []) 0) cl 0%Z).
  { intros i Hi. destruct (Hy i Hi) as (_ & H1). destruct (H1 j Hj) as (_ & H2).
    destruct (H2 0 ltac:(lia)) as (-> & _). unfold m_pred, m_point. fold cl.
    rewrite map_map. replace (map (fun x => nth 0 (map (class_index cl) [x]) 0) lab) with vcl by reflexivity.
    rewrite !map_map. reflexivity. }
  split.
  - intros a b Ha Hb. rewrite D3 by assumption. rewrite Hcnt by (try assumption; lia). rewrite Ly. f_equal.
    apply filter_ext_in. intros i Hi. apply in_seq in Hi. rewrite EP by lia.
    f_equal.
    + rewrite (nth_map_in (fun t : Z => [t]) lab i [] 0%Z) by lia. reflexivity.
    + assert (RG : nth 0 (nth j (nth i y []) []) 0 < length cl).
      { destruct (Hy i ltac:(lia)) as (_ & H1). destruct (H1 j Hj) as (_ & H2). destruct (H2 0 ltac:(lia)) as (-> & _).
        rewrite !map_map.
        eapply (point_range f64_cmp argsort AS rp RP sh SH) with (vl := fun x => nth x lab 0%Z); auto.
        - apply unique_NoDup.
        - intros E0. destruct (Hvc i ltac:(apply in_seq; lia)) as (_ & H3). rewrite E0 in H3. contradiction. }
      destruct (Nat.eqb_spec (nth 0 (nth j (nth i y []) []) 0) b) as [->|Hne].
      * apply Z.eqb_refl.
      * apply Z.eqb_neq. intros E'. apply Hne. apply (proj1 (NoDup_nth cl 0%Z) (unique_NoDup lab)); auto.
  - intros i Hi. rewrite D1 by (apply in_seq; lia). rewrite EP by assumption. reflexivity.
Qed.

(** ** C123 (1): without [sample_idx] a sparse matrix is treated as the dense
    matrix with zeros at the places that are not stored; with [sample_idx] it is
    refused. *)
Theorem C123_sparse_is_densified :
  forall (argsort : list f64 -> list nat) rp sh (Sm : smat f64) target ks metric test,
    predict_full argsort rp sh (MSparse Sm) target ks metric test None =
    predict_full argsort rp sh
      (MDense (Arr2 (srow Sm) (scol Sm)
         (fun i j => match stored Sm i j with Some v => v | None => n0 end))) target ks metric test None /\
    forall sample, predict_full argsort rp sh (MSparse Sm) target ks metric test (Some sample) = Raise TypeError.
Proof. intros. split; reflexivity. Qed.

(** objects with a strictly better value come first *)
Lemma ranking_prefix (better : nat -> nat -> bool) (cand good : nat -> Prop) idx (w : list nat) k :
  ranking better cand idx -> NoDup w -> k <= length w ->
  (forall x, In x w -> good x /\ cand x) ->
  (forall x y, good x -> cand y -> ~ good y -> better x y = true) ->
  (forall x, {good x} + {~ good x}) ->
  forall x, In x (firstn k idx) -> good x.
Proof.
  intros [Nd In_ So] Nw Hk Hw Hb Dec x Hx.
  destruct (Dec x) as [|Hn]; [assumption|exfalso].
  destruct (In_nth _ _ 0 Hx) as (p & Hp & Ep). rewrite firstn_length in Hp.
  rewrite nth_firstn_lt in Ep by lia.
  assert (Cx : cand x) by (apply In_; rewrite <- Ep; apply nth_In; lia).
  assert (I : incl w (firstn p idx)).
  { intros z Hz. destruct (Hw z Hz) as (Gz & Cz). apply In_ in Cz.
    destruct (In_nth _ _ 0 Cz) as (q & Hq & Eq).
    destruct (lt_eq_lt_dec q p) as [[H|H]|H].
    - rewrite <- Eq, <- (nth_firstn_lt p) by lia. apply nth_In. rewrite firstn_length. lia.
    - subst q. exfalso. apply Hn. congruence.
    - exfalso. specialize (So p q H Hq). rewrite Ep, Eq in So. rewrite Hb in So; [discriminate|assumption|assumption|assumption]. }
  apply (NoDup_incl_length Nw) in I. rewrite firstn_length in I. lia.
Qed.

Lemma elected_constant nn c z : (forall x, In x nn -> x = c) -> nn <> [] -> elected nn z -> z = c.
Proof.
  intros Hc Hne.
  assert (V0 : forall d, d <> c -> zvotes nn d = 0).
  { intros d Hd. apply count_occ_not_In. intros H. apply Hd. auto. }
  assert (V1 : 0 < zvotes nn c).
  { destruct nn as [|a nn]; [congruence|]. unfold zvotes. rewrite (Hc a) by now left.
    cbn. destruct (Z.eq_dec c c); [lia|congruence]. }
  intros [P|(Np & _)].
  - destruct (Z.eq_dec z c) as [|Hz]; [assumption|]. specialize (P c ltac:(congruence)). rewrite (V0 z Hz) in P. lia.
  - exfalso. apply (Np c). intros d Hd. rewrite V0 by assumption. assumption.
Qed.

(** ** C123 (2), DEFECT: in a sparse distance matrix the objects without a stored
    distance vote as the nearest ones.  If object i has k or more of them and
    they all carry the same label, that label is predicted, whatever the stored
    (positive) distances and the labels of the objects at these distances. *)
Theorem C123_missing_distances_win :
  forall argsort, argsort_ok argsort ->
  forall rp, (forall i l, Permutation (rp i l) l) ->
  forall sh, (forall (i j : nat) l, Permutation (sh i j l) l) ->
  forall (Sm : smat f64) target ks c cl i (w : list nat) (label : nat -> Z),
    srow Sm = scol Sm -> length target = srow Sm ->
    (forall r, In r target -> length r = c) -> distinct_sorted (concat target) cl ->
    (forall x v, x < srow Sm -> stored Sm i x = Some v -> x <> i -> nlt n0 v = true) ->
    i < srow Sm -> NoDup w -> (forall x, In x w -> x < srow Sm /\ x <> i /\ stored Sm i x = None) ->
    (forall k, In k ks -> 0 < k /\ k <= length w) ->
    (forall x l, x < srow Sm -> x <> i -> stored Sm i x = None -> l < c ->
       nth l (nth x target []) 0%Z = label l) ->
    exists y cm, predict_full argsort rp sh (MSparse Sm) target (map Z.of_nat ks) "distance" None None = Ok (y, cm) /\
      forall j l, j < length ks -> l < c ->
        nth_error cl (nth l (nth j (nth i y []) []) 0) = Some (label l).
Proof.
  intros argsort AS rp RP sh SH Sm target ks c cl i w label Hsq HT Hc Hcl Hpos Hi Nw Hw Hk Hlab.
  rewrite (distinct_unique _ _ Hcl).
  destruct (predict_elected f64_cmp argsort AS rp RP sh SH (sdense Sm) target (map Z.of_nat ks) "distance" c
     Hsq ltac:(cbn; lia) eq_refl) as (y & Ey & Ly & Hy).
  { intros x Hx. apply Hc, nth_In, Hx. }
  { intros k Hin. apply in_map_iff in Hin. destruct Hin as (k' & <- & Hk'). specialize (Hk k' Hk'). lia. }
  pose proof (predict_full_eq argsort rp sh (MSparse Sm) target (map Z.of_nat ks) "distance" None None I) as E.
  cbn [dense_of] in E. rewrite Ey in E. cbn [bind] in E.
  match type of E with _ = Ok (_, ?m) => set (cm := m) in E end.
  exists y, cm. split; [exact E|]. intros j l Hj Hl.
  destruct (Hy i Hi) as (_ & Hy1). rewrite map_length in Hy1. destruct (Hy1 j Hj) as (_ & Hy2).
  destruct (Hy2 l Hl) as (B & El). clear Hy1 Hy2 Hy.
  set (idx := m_idx argsort rp "distance" false (sdense Sm) (seq 0 (nrow (sdense Sm))) i) in *.
  assert (Vz : forall x, x <> i -> stored Sm i x = None -> rank_value "distance" (sdense Sm) i x = n0).
  { intros x Hx Hs. unfold rank_value. apply Nat.eqb_neq in Hx as ->. cbn. unfold sval. now rewrite Hs. }
  assert (Wne : exists x, In x w).
  { specialize (Hk (nth j ks 0) (nth_In _ _ Hj)). destruct w as [|x w']; [cbn in Hk; lia|]. exists x. now left. }
  assert (Hf : has_finite_neighbor "distance" (sdense Sm) i).
  { split.
    - destruct Wne as (x & Hx). destruct (Hw x Hx) as (H1 & H2 & H3). exists x. cbn [sdense ncol at2].
      split; [lia|]. split; [assumption|]. unfold sval. rewrite H3. reflexivity.
    - intros x Hx Hne. cbn [sdense at2 ncol] in *. unfold sval. destruct (stored Sm i x) as [v|] eqn:Es; [|left; reflexivity].
      specialize (Hpos x v ltac:(lia) Es Hne). cbn [oval].
      destruct (nisfin v) eqn:F; [now left|right]. destruct (nisnan v) eqn:Nn; [now left|right].
      revert Hpos F Nn. change (worst (V:=f64) "distance") with (@ninf f64 _).
      rewrite (cl_lt _ _ _ f64_cmp), (cl_fin _ _ _ f64_cmp), (cl_nan _ _ _ f64_cmp), (cl_eq _ _ _ f64_cmp),
        (cl_inf _ _ _ f64_cmp), (cl_0 _ _ _ f64_cmp).
      match goal with |- context [?f v] => generalize (f v) end. intros X. destruct X; cbn; intros; try discriminate; reflexivity. }
  specialize (El Hf).
  destruct (loo_full f64_cmp argsort AS rp RP sh SH (sdense Sm) (repeat 0%Z (srow Sm)) [] "distance" Hsq
     (repeat_length _ _) eq_refl) as (o1 & p1 & _ & _ & _ & Hr).
  destruct (Hr i Hi) as (Rk & _). fold idx in Rk. clear Hr.
  assert (Hkj : 0 < nth j ks 0 /\ nth j ks 0 <= length w) by (apply Hk, nth_In; assumption).
  assert (Ek : nth j (map Z.of_nat ks) 0%Z = Z.of_nat (nth j ks 0)) by exact (map_nth Z.of_nat ks 0 j).
  rewrite Ek, P_SNN.prefix_nat in El.
  assert (G : forall x, In x (firstn (nth j ks 0) idx) -> (x <> i /\ x < srow Sm) /\ stored Sm i x = None).
  { refine (ranking_prefix _ _ _ idx w (nth j ks 0) Rk Nw (proj2 Hkj) _ _ _).
    - intros x Hx. destruct (Hw x Hx) as (H1 & H2 & H3). split; [auto|]. split; [exact H1|].
      rewrite Vz by assumption. reflexivity.
    - intros x z ((H1 & H1') & H2) (Hz & Nz) Hng. rewrite (Vz x H1 H2). unfold nearer. cbn [is_sim].
      change (is_sim "distance") with false. cbv iota. revert Nz. unfold rank_value.
      destruct (Nat.eqb_spec z i) as [->|Hzi]; [intros _; reflexivity|]. cbn [sdense at2]. unfold sval.
      destruct (stored Sm i z) as [v|] eqn:Ez; [|exfalso; apply Hng; auto].
      intros _. cbn [oval]. apply (Hpos z); assumption.
    - intros x. destruct (Nat.eq_dec x i) as [Hx|Hx]; [right; tauto|].
      destruct (lt_dec x (srow Sm)) as [Hx'|Hx']; [|right; tauto].
      destruct (stored Sm i x); [right; intros (_ & H); discriminate|left; auto]. }
  set (nn := filter _ _) in El.
  assert (Enn : nn = firstn (nth j ks 0) idx).
  { unfold nn. apply filter_true_in. intros x Hx. destruct (G x Hx) as ((H1 & _) & H2). rewrite (Vz x H1 H2). reflexivity. }
  assert (Hne : nn <> []).
  { rewrite Enn. destruct Wne as (x & Hx). destruct (Hw x Hx) as (H1 & H2 & H3).
    assert (In x idx) by (apply (rk_in _ _ _ Rk); split; [exact H1|]; rewrite Vz by assumption; reflexivity).
    destruct idx as [|a idx']; [contradiction|]. destruct (nth j ks 0); [lia|discriminate]. }
  rewrite (nth_error_nth' _ 0%Z B). f_equal.
  apply (elected_constant _ (label l) _) in El; [exact El| |].
  - intros z Hz. apply in_map_iff in Hz as (x & <- & Hx). rewrite Enn in Hx.
    destruct (G x Hx) as ((H1 & H1') & H2). now apply Hlab.
  - intros E0. apply Hne. destruct nn; [reflexivity|discriminate].
Qed.

(* ------------------------------------------------------------------ *)
Definition exPr : arr2 f64 :=
  of_rows nnan (map (map f64_ofZ) [[0;1;4;5];[1;0;2;6];[4;2;0;3];[5;6;3;0]]%Z).
Definition exTarget : list (list Z) := [[7; 1]; [7; 2]; [3; 1]; [7; 2]]%Z.
Example C122_case :
  match predict_full ref_argsort (fun _ l => l) (fun _ _ l => l) (MDense exPr) exTarget [1; 3]%Z "distance" None None with
  | Ok (y, cm) =>
      y = [[[3; 1]; [3; 1]]; [[3; 0]; [3; 0]]; [[3; 1]; [3; 1]]; [[2; 0]; [3; 0]]] /\
      map (fun a => map (cm 0 0 a) (seq 0 4)) (seq 0 4) = [[0;0;0;0];[0;0;0;0];[0;0;0;1];[0;0;1;2]] /\
      map (fun a => map (cm 0 1 a) (seq 0 2)) (seq 0 2) = [[0;2];[2;0]]
  | Raise _ => False
  end.
Proof. vm_compute. repeat split; reflexivity. Qed.
Example C122_case_hyps :
  argsort_ok (ref_argsort (V:=f64)) /\ nrow exPr = ncol exPr /\ length exTarget = nrow exPr /\
  (forall r, In r exTarget -> length r = 2) /\ distinct_sorted (concat exTarget) [1; 2; 3; 7]%Z.
Proof.
  split; [exact (ref_argsort_ok f64_cmp)|]. split; [reflexivity|]. split; [reflexivity|].
  split; [intros r [<-|[<-|[<-|[<-|[]]]]]; reflexivity|].
  split; [repeat constructor|]. intros c. cbn. intuition.
Qed.

(** Object 0 has the stored distances 1 and 2 to the objects 1 and 2, both of its
    own class 0; objects 3 and 4, of class 1, have no stored distance to it.
    It is assigned class 1 for k = 1 and 2. *)
Definition exMiss : smat f64 := SMat 5 5 (fun i j =>
  if i =? j then None else if (i <? 3) && (j <? 3) then Some (@nofnat f64 _ (i + j)) else None).
Example C123_case :
  srow exMiss = scol exMiss /\
  (forall x v, x < srow exMiss -> stored exMiss 0 x = Some v -> x <> 0 -> nlt n0 v = true) /\
  (forall x, In x [3; 4] -> x < srow exMiss /\ x <> 0 /\ stored exMiss 0 x = None) /\
  (forall x l, x < srow exMiss -> x <> 0 -> stored exMiss 0 x = None -> l < 1 ->
     nth l (nth x [[0];[0];[0];[1];[1]]%Z []) 0%Z = (fun _ => 1%Z) l).
Proof.
  split; [reflexivity|]. split; [|split].
  - intros [|[|[|[|[|x]]]]] v Hx E Hne; try (cbn in Hx; lia); try discriminate; try lia;
      injection E as <-; vm_compute; reflexivity.
  - intros x [<-|[<-|[]]]; repeat split; try discriminate; cbn; lia.
  - intros [|[|[|[|[|x]]]]] [|l] Hx Hne E Hl; try (cbn in Hx; lia); try lia; try discriminate; reflexivity.
Qed.
Example C123_case_result :
  match predict_full ref_argsort (fun _ l => l) (fun _ _ l => l) (MSparse exMiss) [[0];[0];[0];[1];[1]]%Z [1; 2]%Z "distance" None None with
  | Ok (y, _) => nth 0 y [] = [[1]; [1]]
  | Raise _ => False
  end.
Proof. vm_compute. reflexivity. Qed.

Print Assumptions C122_confusion_matrix_counts.
Print Assumptions C122_confusion_matrix_sums.
Print Assumptions C122_predict_agrees_with_score.
Print Assumptions C123_sparse_is_densified.
Print Assumptions C123_missing_distances_win.
