(** Score- and predict-level lemmas for k-NN classification. *)
From Coq Require Import String.
From Coq Require Import ZArith List Arith Lia Bool Permutation Sorting.
From Verif Require Import Py Num Arr Sort S_Neighbors S_SNN S_KNN M_IO M_GK M_SNN M_KNN P_GK P_GK2 P_SNN P_KNN.
Import ListNotations.
Local Open Scope nat_scope.

Lemma elected_unique nn c c' : elected nn c -> elected nn c' -> c = c'.
Proof.
  intros [P|(Q & E)] [P'|(Q' & E')].
  - destruct (Z.eq_dec c c'); [assumption|]. pose proof (P c' ltac:(congruence)). pose proof (P' c ltac:(congruence)). lia.
  - now apply Q' in P.
  - now apply Q in P'.
  - congruence.
Qed.

Lemma acc_rep_iter {V} {N : Num V} n c :
  acc_rep n c = Nat.iter c (fun a => nadd a (ndiv n1 (nofnat n))) n0.
Proof. induction c; simpl; [reflexivity|]. now rewrite IHc. Qed.

Lemma knn_self_worst {V} {N : Num V} metric : knn_self metric = worst metric (V:=V).
Proof. reflexivity. Qed.

Lemma row_loo {V} {N : Num V} metric (D : arr2 V) i x : x < ncol D ->
  nth x (knn_row metric false D i) nnan = rank_value metric D i x.
Proof. intros H. unfold knn_row, rank_value. now rewrite nth_map_seq. Qed.

Lemma row_sample {V} {N : Num V} metric (D : arr2 V) s i x : x < ncol D -> ncol D = length s ->
  nth x (knn_row metric true (set_cells s (knn_self metric) D) i) nnan = rank_value_s metric D s i x.
Proof.
  intros H Hs. unfold knn_row, rank_value_s.
  destruct (set_cells_shape s (knn_self metric) D) as (R & C).
  rewrite rowl_nth by (now rewrite C). rewrite set_cells_at.
  replace (x <? length s) with true by (symmetry; apply Nat.ltb_lt; lia). simpl.
  now rewrite Nat.eqb_sym.
Qed.

Lemma nth_classes lab i : i < length lab ->
  nth i (map (class_index (unique_labels lab)) lab) 0 = class_index (unique_labels lab) (nth i lab 0%Z).
Proof.
  intros Hi. rewrite nth_indep with (d' := class_index (unique_labels lab) 0%Z) by (now rewrite map_length).
  apply map_nth.
Qed.

Section Mode.
  Context {V : Type} {N : Num V} {toX : V -> xr} (CL : CmpLaws V N toX).
  Variable argsort : list V -> list nat.
  Hypothesis AS : argsort_ok argsort.
  Variable rp : nat -> list nat -> list nat.
  Hypothesis RP : forall i l, Permutation (rp i l) l.
  Variable sh : nat -> nat -> list nat -> list nat.
  Hypothesis SH : forall i j l, Permutation (sh i j l) l.

  Section M.
  Variables (metric : string) (sampled : bool) (D : arr2 V) (lab ks : list Z) (n : nat).
  Variables (points vclasses cand : list nat) (vl : nat -> Z) (val : nat -> nat -> V).
  Let cl := unique_labels lab.
  Hypothesis Hpt : forall i, In i points -> i < length lab.
  Hypothesis Hcand : NoDup cand.
  Hypothesis Hvc : forall x, In x cand -> nth x vclasses 0 = class_index cl (vl x) /\ In (vl x) cl.
  Hypothesis Hrow : forall i x, In i points -> In x cand -> nth x (knn_row metric sampled D i) nnan = val i x.

  Definition m_idx (i : nat) : list nat := knn_idx argsort metric (knn_row metric sampled D i) (rp i cand).
  Definition m_point (i : nat) := knn_point argsort rp sh metric sampled D ks (length cl) vclasses cand i.
  Definition m_pred (j i : nat) : Z := nth (nth j (m_point i) 0) cl 0%Z.
  Definition m_out : list (@kst V) :=
    fold_left (fun st i => zip_upd n i (nth i (map (class_index cl) lab) 0) (m_point i) st)
      points (map (fun _ => kst0) ks).

  Lemma cl_ne i : In i points -> cl <> [].
  Proof.
    intros Hi E. assert (In (nth i lab 0%Z) cl) as H by (apply unique_In, nth_In; auto).
    rewrite E in H. contradiction.
  Qed.

  Lemma m_describes : length m_out = length ks /\
    forall j s, nth_error m_out j = Some s ->
      describes points (fun i => nth i lab 0%Z) cl (m_pred j) (k_corr s) (k_cmat s) /\
      k_acc s = acc_rep n (cnt (fun i => (nth i lab 0 =? m_pred j i)%Z) points).
  Proof.
    apply fold_describes; [| assumption|].
    - intros i. apply point_length.
    - intros i j Hi Hj. unfold m_point.
      eapply (point_range CL argsort AS rp RP sh SH) with (vl := vl); eauto;
        first [apply unique_NoDup | eapply cl_ne; eauto].
  Qed.

  Lemma m_rank i : In i points ->
    ranking (fun x y => nearer metric (val i x) (val i y))
            (fun x => In x cand /\ nisnan (val i x) = false) (m_idx i).
  Proof.
    intros Hi. destruct (point_rank CL argsort AS rp RP metric sampled D cand i Hcand) as [A B C].
    fold (m_idx i) in *. 
    assert (B' : forall x, In x (m_idx i) <-> In x cand /\ nisnan (val i x) = false).
    { intros x. unfold m_idx. rewrite B. split; intros (H1 & H2); split; auto.
      - now rewrite <- Hrow.
      - now rewrite Hrow. }
    split; [exact A|exact B'|]. intros a b Hab Hb. specialize (C a b Hab Hb).
    cbv beta in C. rewrite !Hrow in C; auto.
    - apply B'. apply nth_In. unfold m_idx in *. lia.
    - apply B'. apply nth_In. assumption.
  Qed.

  Lemma m_fin i l : In i points -> incl l cand ->
    filter (fun x => nisfin (val i x)) l = filter (fun x => nisfin (nth x (knn_row metric sampled D i) nnan)) l.
  Proof. intros Hi Hl. apply filter_ext_in. intros x Hx. rewrite Hrow; auto. Qed.

  Lemma m_idx_cand i k : In i points -> incl (prefix (m_idx i) k) cand.
  Proof.
    intros Hi x Hx. apply prefix_incl in Hx. now apply (rk_in _ _ _ (m_rank i Hi)) in Hx.
  Qed.

  Lemma m_elected i j : In i points -> j < length ks ->
    (forall j', j' <= j -> filter (fun x => nisfin (val i x)) (prefix (m_idx i) (nth j' ks 0%Z)) <> []) ->
    elected (map vl (filter (fun x => nisfin (val i x)) (prefix (m_idx i) (nth j ks 0%Z)))) (m_pred j i).
  Proof.
    intros Hi Hj H. rewrite m_fin by (auto; now apply m_idx_cand). unfold m_pred, m_point.
    apply (point_elected CL argsort AS rp RP sh SH); auto.
    - apply unique_NoDup.
    - intros j' Hj'. specialize (H j' Hj'). rewrite m_fin in H by (auto; now apply m_idx_cand). exact H.
  Qed.

  Lemma m_near i j : In i points -> valid_metric metric = true ->
    (exists x, In x cand /\ nisfin (val i x) = true) ->
    (forall x, In x cand -> nisfin (val i x) = true \/ nisnan (val i x) = true \/
       neq (val i x) (worst metric) = true) ->
    (forall k, In k ks -> (0 < k)%Z) -> j < length ks ->
    filter (fun x => nisfin (val i x)) (prefix (m_idx i) (nth j ks 0%Z)) <> [].
  Proof.
    intros Hi Hv (x & Hx & Hf) Hall Hk Hj. rewrite m_fin by (auto; now apply m_idx_cand).
    apply (point_near CL argsort AS rp RP); auto.
    - exists x. split; [assumption|]. now rewrite Hrow.
    - intros y Hy. rewrite Hrow by assumption. auto.
  Qed.

  Lemma m_from i j : In i points -> j < length ks ->
    m_pred j i = nth (length cl - 1) cl 0%Z \/ exists x, In x cand /\ m_pred j i = vl x.
  Proof.
    intros Hi Hj. unfold m_pred, m_point.
    destruct (point_from CL argsort AS rp RP sh SH metric sampled D ks cl vclasses cand vl i Hcand Hvc j Hj) as [E|E].
    - left. now rewrite E.
    - now right.
  Qed.
  End M.

  (** the three modes of score *)
  Lemma score_loo (D : arr2 V) lab ks metric : nrow D = ncol D -> length lab = nrow D ->
    valid_metric metric = true ->
    score argsort rp sh D lab ks metric None None =
    Ok (m_out metric false D lab ks (nrow D) (seq 0 (nrow D)) (map (class_index (unique_labels lab)) lab)
          (seq 0 (nrow D))).
  Proof.
    intros Hsq HL Hv. unfold score.
    assert (C1 : check_distance_matrix_shape (Dense [nrow D; ncol D]) = Ok tt)
      by (unfold check_distance_matrix_shape, check_is_nD_array, dim0, dim1; simpl; now rewrite Hsq, Nat.eqb_refl).
    assert (C2 : check_distance_matrix_shape_fits_labels (Dense [nrow D; ncol D]) (Dense [length lab]) = Ok tt)
      by (unfold check_distance_matrix_shape_fits_labels, check_is_nD_array, dim0, size_of; simpl;
          now rewrite HL, Nat.mul_1_r, Nat.eqb_refl).
    assert (C3 : check_valid_metric_parameter metric = Ok tt)
      by (unfold check_valid_metric_parameter, valid_metric in *;
          destruct (is_dist metric), (is_sim metric); simpl in *; auto; discriminate).
    rewrite C1, C2, C3. cbn [bind guard].
    assert (E1 : existsb (fun i => nrow D <=? i) (seq 0 (nrow D)) = false).
    { apply not_true_iff_false. intros H. apply existsb_exists in H. destruct H as (x & Hx & E).
      apply in_seq in Hx. apply Nat.leb_le in E. lia. }
    rewrite E1. rewrite <- Hsq, E1. reflexivity.
  Qed.

  Lemma score_sample (D : arr2 V) lab ks metric s : length s = ncol D -> ncol D <= nrow D -> length lab = nrow D ->
    valid_metric metric = true -> (forall x, In x s -> x < nrow D) ->
    score argsort rp sh D lab ks metric None (Some s) =
    Ok (m_out metric true (set_cells s (knn_self metric) D) lab ks (nrow D) (seq 0 (nrow D))
          (take 0 (map (class_index (unique_labels lab)) lab) s) (seq 0 (length s))).
  Proof.
    intros Hs Hle HL Hv Hr. unfold score.
    assert (C1 : check_sample_shape_fits (Dense [nrow D; ncol D]) (Dense [length s]) = Ok tt).
    { unfold check_sample_shape_fits, check_is_nD_array, dim0, dim1, size_of. simpl.
      replace (nrow D <? ncol D) with false by (symmetry; apply Nat.ltb_ge; lia).
      simpl. now rewrite Nat.mul_1_r, Hs, Nat.eqb_refl. }
    assert (C2 : check_distance_matrix_shape_fits_labels (Dense [nrow D; ncol D]) (Dense [length lab]) = Ok tt)
      by (unfold check_distance_matrix_shape_fits_labels, check_is_nD_array, dim0, size_of; simpl;
          now rewrite HL, Nat.mul_1_r, Nat.eqb_refl).
    assert (C3 : check_valid_metric_parameter metric = Ok tt)
      by (unfold check_valid_metric_parameter, valid_metric in *;
          destruct (is_dist metric), (is_sim metric); simpl in *; auto; discriminate).
    rewrite C1, C2, C3. cbn [bind guard].
    assert (E0 : existsb (fun x => nrow D <=? x) s = false).
    { apply not_true_iff_false. intros H. apply existsb_exists in H. destruct H as (x & Hx & E).
      apply Nat.leb_le in E. specialize (Hr x Hx). lia. }
    assert (E1 : existsb (fun i => nrow D <=? i) (seq 0 (nrow D)) = false).
    { apply not_true_iff_false. intros H. apply existsb_exists in H. destruct H as (x & Hx & E).
      apply in_seq in Hx. apply Nat.leb_le in E. lia. }
    assert (E2 : existsb (fun i => ncol D <=? i) (seq 0 (length s)) = false).
    { apply not_true_iff_false. intros H. apply existsb_exists in H. destruct H as (x & Hx & E).
      apply in_seq in Hx. apply Nat.leb_le in E. lia. }
    rewrite E0, E1, E2. reflexivity.
  Qed.

  Lemma NoDup_bounded (t : list nat) m : NoDup t -> (forall x, In x t -> x < m) -> length t <= m.
  Proof.
    intros Hn Hb. rewrite <- (seq_length m 0). apply NoDup_incl_length; [assumption|].
    intros x Hx. apply in_seq. specialize (Hb x Hx). lia.
  Qed.

  Definition test_cand (t : list nat) := filter (fun x => negb (existsb (Nat.eqb x) t)) (seq 0 (length t)).
  Lemma test_cand_In t x : In x (test_cand t) <-> x < length t /\ ~ In x t.
  Proof.
    unfold test_cand. rewrite filter_In, in_seq, negb_true_iff. split.
    - intros (H1 & H2). split; [lia|]. intros Hx. apply not_true_iff_false in H2. apply H2.
      apply existsb_exists. exists x. split; [assumption|apply Nat.eqb_refl].
    - intros (H1 & H2). split; [lia|]. apply not_true_iff_false. intros H. apply H2.
      apply existsb_exists in H. destruct H as (y & Hy & E). apply Nat.eqb_eq in E. now subst.
  Qed.

  Lemma score_test (D : arr2 V) lab ks metric t : nrow D = ncol D -> length lab = nrow D ->
    valid_metric metric = true -> NoDup t -> (forall x, In x t -> x < nrow D) ->
    score argsort rp sh D lab ks metric (Some t) None =
    Ok (m_out metric false D lab ks (length t) t (map (class_index (unique_labels lab)) lab) (test_cand t)).
  Proof.
    intros Hsq HL Hv Hn Hr. unfold score.
    assert (C1 : check_distance_matrix_shape (Dense [nrow D; ncol D]) = Ok tt)
      by (unfold check_distance_matrix_shape, check_is_nD_array, dim0, dim1; simpl; now rewrite Hsq, Nat.eqb_refl).
    assert (C2 : check_distance_matrix_shape_fits_labels (Dense [nrow D; ncol D]) (Dense [length lab]) = Ok tt)
      by (unfold check_distance_matrix_shape_fits_labels, check_is_nD_array, dim0, size_of; simpl;
          now rewrite HL, Nat.mul_1_r, Nat.eqb_refl).
    assert (C3 : check_valid_metric_parameter metric = Ok tt)
      by (unfold check_valid_metric_parameter, valid_metric in *;
          destruct (is_dist metric), (is_sim metric); simpl in *; auto; discriminate).
    rewrite C1, C2, C3. cbn [bind guard].
    assert (E1 : existsb (fun i => nrow D <=? i) t = false).
    { apply not_true_iff_false. intros H. apply existsb_exists in H. destruct H as (x & Hx & E).
      specialize (Hr x Hx). apply Nat.leb_le in E. lia. }
    assert (E2 : existsb (fun x => ncol D <=? x) (test_cand t) = false).
    { apply not_true_iff_false. intros H. apply existsb_exists in H. destruct H as (x & Hx & E).
      apply test_cand_In in Hx. apply Nat.leb_le in E. pose proof (NoDup_bounded t _ Hn Hr). lia. }
    rewrite E1. fold (test_cand t). rewrite E2. reflexivity.
  Qed.

  Lemma score_both (D : arr2 V) lab ks metric t s : length s = ncol D -> ncol D <= nrow D ->
    length lab = nrow D -> valid_metric metric = true ->
    score argsort rp sh D lab ks metric (Some t) (Some s) = Raise NotImplementedError.
  Proof.
    intros Hs Hle HL Hv. unfold score.
    assert (C1 : check_sample_shape_fits (Dense [nrow D; ncol D]) (Dense [length s]) = Ok tt).
    { unfold check_sample_shape_fits, check_is_nD_array, dim0, dim1, size_of. simpl.
      replace (nrow D <? ncol D) with false by (symmetry; apply Nat.ltb_ge; lia).
      simpl. now rewrite Nat.mul_1_r, Hs, Nat.eqb_refl. }
    assert (C2 : check_distance_matrix_shape_fits_labels (Dense [nrow D; ncol D]) (Dense [length lab]) = Ok tt)
      by (unfold check_distance_matrix_shape_fits_labels, check_is_nD_array, dim0, size_of; simpl;
          now rewrite HL, Nat.mul_1_r, Nat.eqb_refl).
    assert (C3 : check_valid_metric_parameter metric = Ok tt)
      by (unfold check_valid_metric_parameter, valid_metric in *;
          destruct (is_dist metric), (is_sim metric); simpl in *; auto; discriminate).
    rewrite C1, C2, C3. reflexivity.
  Qed.

  (** side conditions of the modes *)
  Lemma loo_vc (lab : list Z) x : In x (seq 0 (length lab)) ->
    nth x (map (class_index (unique_labels lab)) lab) 0 = class_index (unique_labels lab) (nth x lab 0%Z) /\
    In (nth x lab 0%Z) (unique_labels lab).
  Proof.
    intros Hx. apply in_seq in Hx. split; [apply nth_classes; lia|]. apply unique_In, nth_In. lia.
  Qed.
  Lemma sample_vc (lab : list Z) s x : (forall x, In x s -> x < length lab) -> In x (seq 0 (length s)) ->
    nth x (take 0 (map (class_index (unique_labels lab)) lab) s) 0 =
      class_index (unique_labels lab) (nth (nth x s 0) lab 0%Z) /\
    In (nth (nth x s 0) lab 0%Z) (unique_labels lab).
  Proof.
    intros Hs Hx. apply in_seq in Hx. assert (Hl : nth x s 0 < length lab) by (apply Hs, nth_In; lia).
    split.
    - unfold take. rewrite nth_indep with (d' := nth 0 (map (class_index (unique_labels lab)) lab) 0)
        by (rewrite map_length; lia).
      rewrite (map_nth (fun k => nth k (map (class_index (unique_labels lab)) lab) 0)).
      now apply nth_classes.
    - now apply unique_In, nth_In.
  Qed.
  Lemma test_vc (lab : list Z) t x : length t <= length lab -> In x (test_cand t) ->
    nth x (map (class_index (unique_labels lab)) lab) 0 = class_index (unique_labels lab) (nth x lab 0%Z) /\
    In (nth x lab 0%Z) (unique_labels lab).
  Proof.
    intros Ht Hx. apply test_cand_In in Hx. apply loo_vc, in_seq. lia.
  Qed.
End Mode.
