(** Lemmas about the sparse branch of [score] when NaN values or zeros are stored. *)
From Coq Require Import String.
From Coq Require Import ZArith List Arith Lia Bool Permutation.
From Verif Require Import Py Num Arr Sort S_Neighbors S_SNN S_KNN M_IO M_GK M_SNN M_KNN M_MPEmpiric M_SparseKNN.
From Verif Require Import S_SparseKNN P_Neighbors P_SNN P_KNN P_KNN2 P_KNN4 P_GK P_GK2 P_SparseKNN P_SparseKNN2 P_SparseKNN3 P_SparseKNN4 P_SparseScore P_SparseScore2.
From Verif Require Import S_SparseNaN P_SparseNaN.
Import ListNotations.
Local Open Scope nat_scope.

Section Run.
  Context {V : Type} {N : Num V} {toX : V -> xr} (CL : CmpLaws V N toX).
  Variable argpart : list V -> list nat -> list nat.
  Hypothesis AP : argpart_ok argpart.
  Variable rp : nat -> list nat -> list nat.
  Hypothesis RP : forall i l, Permutation (rp i l) l.
  Variable sh : nat -> nat -> list nat -> list nat.
  Hypothesis SH : forall i j l, Permutation (sh i j l) l.

  Lemma point_gen (S : smat V) (lab : list Z) (ks : list nat) i : scol S = length lab -> (exists x, linked S i x) ->
    exists L, NoDup L /\ (forall x, In x L <-> known S i x) /\
      (forall k, In k ks \/ k = 0 \/ k = 1 -> n_nan S i <= k -> best_first S i (k + 1 - n_nan S i) L) /\
      (~ readable S i -> sp_point argpart rp sh S (map Z.of_nat ks) (length (xcl lab)) (map (class_index (xcl lab)) lab) i = Raise IndexError) /\
      (readable S i -> sp_point argpart rp sh S (map Z.of_nat ks) (length (xcl lab)) (map (class_index (xcl lab)) lab) i =
         Ok (map (fun nn => knn_vote (length (xcl lab)) (take 0 (map (class_index (xcl lab)) lab) nn))
               (knn_voters (sp_row S i) (sh i) 0 (map Z.of_nat ks) (map (blamed S i) (tl L))))).
  Proof.
    intros HC (x0 & Hx0).
    assert (Hn : 0 < length (sp_cols S i)). { apply stored_linked in Hx0. destruct (sp_cols S i); [contradiction|cbn; lia]. }
    destruct (ranked_gen CL argpart AP S i (rp i (seq 0 (length (sp_cols S i)))) ks Hn (RP _ _)) as (L & PL & Er & Hb).
    pose proof (in_known S i L PL) as IL. exists L.
    split. { apply (Permutation_NoDup (Permutation_sym PL)), NoDup_filter, cols_NoDup. }
    split; [exact IL|]. split; [exact Hb|].
    assert (Rd : existsb (fun x => length (nonzero_cols S i) <=? rank S i x) L = false <-> readable S i).
    { split.
      - intros E x Hx. destruct (Nat.lt_ge_cases (rank S i x) (length (nonzero_cols S i))) as [|C]; [assumption|]. exfalso.
        apply not_true_iff_false in E. apply E, existsb_exists. exists x. split; [now apply IL|now apply Nat.leb_le].
      - intros H. apply not_true_iff_false. intros E. apply existsb_exists in E as (x & Hx & C). apply IL, H in Hx. apply Nat.leb_le in C. lia. }
    unfold sp_point. rewrite Er. split.
    - intros H. destruct (existsb _ L) eqn:E; [reflexivity|]. exfalso. now apply H, Rd.
    - intros H. rewrite (proj2 Rd H). cbn [bind]. now destruct L.
  Qed.

  (** a blamed object is an object with a stored value other than zero *)
  Lemma blamed_in (S : smat V) i x : readable S i -> known S i x -> In (blamed S i x) (nonzero_cols S i).
  Proof. intros H Hx. apply nth_In. now apply H. Qed.
  Lemma blamed_lt (S : smat V) i x : readable S i -> known S i x -> blamed S i x < scol S.
  Proof. intros H Hx. pose proof (blamed_in S i x H Hx) as I. apply filter_In in I as (I & _). apply in_seq in I. lia. Qed.

  Definition predicted (lab : list Z) (l : list nat) (j : nat) : Z := nth (nth j l 0) (xcl lab) 0%Z.

  (** the vote of a list of voters, in terms of labels *)
  Lemma vote_labels (lab : list Z) nn : (forall x, In x nn -> x < length lab) ->
    (nn = [] -> nth (knn_vote (length (xcl lab)) (take 0 (map (class_index (xcl lab)) lab) nn)) (xcl lab) 0%Z = (last (unique_labels lab) 0 + 1)%Z) /\
    (nn <> [] -> elected (map (fun x => nth x lab 0%Z) nn) (nth (knn_vote (length (xcl lab)) (take 0 (map (class_index (xcl lab)) lab) nn)) (xcl lab) 0%Z)) /\
    knn_vote (length (xcl lab)) (take 0 (map (class_index (xcl lab)) lab) nn) < length (xcl lab).
  Proof.
    intros Hlt.
    assert (Hr : forall x, In x nn -> In (nth x lab 0%Z) (xcl lab)).
    { intros x Hx. unfold xcl. apply in_app_iff. left. now apply unique_In, nth_In, Hlt. }
    assert (Et : take 0 (map (class_index (xcl lab)) lab) nn = map (fun x => class_index (xcl lab) (nth x lab 0%Z)) nn).
    { unfold take. apply map_ext_in. intros x Hx. rewrite nth_indep with (d' := class_index (xcl lab) 0%Z) by (rewrite map_length; now apply Hlt).
      apply map_nth. }
    split; [|split].
    - intros ->. cbn [take map]. rewrite vote_nil, xcl_length, Nat.add_sub. apply xcl_unknown.
    - intros Hnn. rewrite Et.
      replace (map (fun x => nth x lab 0%Z) nn) with
        (map (fun c => nth c (xcl lab) 0%Z) (map (fun x => class_index (xcl lab) (nth x lab 0%Z)) nn)).
      2:{ rewrite map_map. apply map_ext_in. intros x Hx. apply class_index_nth. now apply Hr. }
      apply vote_elected.
      + apply xcl_NoDup.
      + intros H. apply map_eq_nil in H. contradiction.
      + intros c Hin. apply in_map_iff in Hin. destruct Hin as (x & <- & Hx). apply class_index_lt. now apply Hr.
    - rewrite Et. destruct nn as [|x nn]; [cbn [map]; rewrite vote_nil, xcl_length; lia|].
      assert (Hv : In (knn_vote (length (xcl lab)) (map (fun x => class_index (xcl lab) (nth x lab 0%Z)) (x :: nn)))
                      (map (fun x => class_index (xcl lab) (nth x lab 0%Z)) (x :: nn))) by (apply vote_in; discriminate).
      apply in_map_iff in Hv. destruct Hv as (y & E & Hy). rewrite <- E. apply class_index_lt. now apply Hr.
  Qed.

  (** the evaluation of all objects, given the results of the single points *)
  Lemma score_gen (S : smat V) (lab : list Z) (ks : list nat) metric (pt : nat -> list nat) : srow S = length lab -> scol S = length lab ->
    lab <> [] -> valid_metric metric = true ->
    (forall i, i < length lab ->
       sp_point argpart rp sh S (map Z.of_nat ks) (length (xcl lab)) (map (class_index (xcl lab)) lab) i = Ok (pt i) /\
       length (pt i) = length ks /\ forall j, j < length ks -> nth j (pt i) 0 < length (xcl lab)) ->
    exists out, score_sparse argpart rp sh S lab (map Z.of_nat ks) metric None None = Ok out /\ length out = length ks /\
      forall j s, nth_error out j = Some s ->
        describes (seq 0 (length lab)) (fun i => nth i lab 0%Z) (xcl lab) (fun i => predicted lab (pt i) j) (k_corr s) (k_cmat s) /\
        consistent (seq 0 (length lab)) (fun i => nth i lab 0%Z) (xcl lab) (k_acc s) (k_corr s) (k_cmat s).
  Proof.
    intros HR HC Hl HM Hp. set (points := seq 0 (length lab)).
    assert (Hpt : forall i, In i points -> i < length lab) by (intros i Hi; apply in_seq in Hi; lia).
    exists (fold_left (fun st i => zip_upd (length points) i (nth i (map (class_index (xcl lab)) lab) 0) (pt i) st)
            points (map (fun _ => kst0) (map Z.of_nat ks))).
    split.
    { unfold score_sparse.
      unfold check_distance_matrix_shape, check_distance_matrix_shape_fits_labels, check_is_nD_array, guard, dim0, dim1, size_of, shape_of.
      cbn [length nth fold_right]. rewrite HR, HC, Nat.mul_1_r, !Nat.eqb_refl. cbn [negb bind Nat.eqb].
      replace (check_valid_metric_parameter metric) with (Ok tt).
      2:{ unfold check_valid_metric_parameter, guard. unfold valid_metric in HM. destruct (is_dist metric), (is_sim metric); auto; discriminate. }
      cbn [bind].
      replace (length (unique_labels lab) =? 0) with false.
      2:{ symmetry. apply Nat.eqb_neq. intros E. destruct lab as [|z lab']; [congruence|].
          assert (In z (unique_labels (z :: lab'))) by (apply unique_In; now left).
          destruct (unique_labels (z :: lab')); [contradiction|discriminate]. }
      cbn [bind]. rewrite classes_xcl. rewrite <- xcl_length. fold points.
      rewrite existsb_false. 2:{ intros x Hx. apply Nat.leb_gt. now apply Hpt. }
      cbn [bind].
      rewrite (mapM_ok_map _ pt). 2:{ intros i Hi. now apply Hp, Hpt. }
      cbn [bind]. f_equal.
      replace (length points) with (length lab) by (symmetry; apply seq_length).
      apply (combine_fold (fun st i p => zip_upd (length lab) i (nth i (map (class_index (xcl lab)) lab) 0) p st)). }
    set (preds := fun i => if i <? length lab then pt i else repeat 0 (length ks)).
    assert (Eq : forall i, In i points -> preds i = pt i).
    { intros i Hi. unfold preds. specialize (Hpt i Hi). now apply Nat.ltb_lt in Hpt as ->. }
    rewrite (fold_left_ext_in _ (fun st i => zip_upd (length points) i (nth i (map (class_index (xcl lab)) lab) 0) (preds i) st)).
    2:{ intros st i Hi. now rewrite Eq. }
    destruct (fold_describes_gen (V:=V) (length points) points lab (xcl lab) preds (map Z.of_nat ks)) as (L & D).
    - apply xcl_NoDup.
    - intros z Hz. apply in_app_iff. left. now apply unique_In.
    - intros i. rewrite map_length. unfold preds. destruct (Nat.ltb_spec i (length lab)) as [Hi|Hi]; [|apply repeat_length]. now apply Hp.
    - exact Hpt.
    - intros i j Hi Hj. rewrite map_length in Hj. rewrite Eq by exact Hi. now apply Hp; [apply Hpt|].
    - rewrite map_length in L. split; [exact L|]. intros j s Hs. destruct (D j s Hs) as (D1 & D2).
      assert (Hd : describes points (fun i => nth i lab 0%Z) (xcl lab) (fun i => predicted lab (pt i) j) (k_corr s) (k_cmat s)).
      { destruct D1 as [d1 d2 d3 d4]. constructor.
        * intros i Hi. rewrite d1 by exact Hi. now rewrite Eq.
        * exact d2.
        * intros a b Ha Hb. rewrite d3 by assumption. f_equal. apply filter_ext_in. intros i Hi. now rewrite Eq.
        * intros i Hi. specialize (d4 i Hi). now rewrite Eq in d4. }
      split; [exact Hd|].
      destruct (describes_sums _ _ _ _ _ _ (xcl_NoDup lab) Hd) as (S1 & S2 & S3).
      { intros i Hi. unfold xcl. apply in_app_iff. left. apply unique_In, nth_In. now apply Hpt. }
      split; auto.
      + apply (de_other _ _ _ _ _ _ Hd).
      + rewrite D2, acc_rep_iter. unfold cnt. f_equal. f_equal.
        apply filter_ext_in. intros i Hi. rewrite Eq by exact Hi. symmetry. now apply (de_corr _ _ _ _ _ _ Hd).
  Qed.
End Run.
