(** predict (dense, leave-one-out) *)
From Coq Require Import String.
From Coq Require Import ZArith List Arith Lia Bool Permutation Sorting.
From Verif Require Import Py Num Arr Sort S_Neighbors S_SNN S_KNN M_IO M_GK M_SNN M_KNN P_GK P_GK2 P_SNN P_KNN P_KNN2.
Import ListNotations.
Local Open Scope nat_scope.

Lemma nth_map_in {A B} (f : A -> B) l i d d0 : i < length l -> nth i (map f l) d = f (nth i l d0).
Proof.
  intros H. rewrite nth_indep with (d' := f d0) by (now rewrite map_length). apply map_nth.
Qed.

Lemma vote_indep a b nn : nn <> [] -> knn_vote a nn = knn_vote b nn.
Proof.
  intros H. unfold knn_vote. destruct (bincount0_eq nn) as (m & _ & Hm & _ & ->).
  rewrite map_length, seq_length. specialize (Hm H).
  now replace (0 <? m) with true by (symmetry; apply Nat.ltb_lt; lia).
Qed.

Lemma voters_nonempty {V} {N : Num V} (row : list V) sh ks : (forall j l, Permutation (sh j l) l) ->
  (forall k, In k ks -> (0 < k)%Z) -> forall j idx, idx <> [] ->
  Forall (fun nn => nn <> []) (knn_voters row sh j ks idx).
Proof.
  intros SH Hk. induction ks as [|k ks IH]; intros j idx Hne; simpl; [constructor|].
  destruct (filter _ (prefix idx k)) as [|f fs].
  - assert (Hs : sh j idx <> []).
    { intros E. apply Hne. apply Permutation_nil. rewrite <- E. apply SH. }
    constructor.
    + destruct (sh j idx) as [|h t] eqn:E; [congruence|].
      unfold prefix. specialize (Hk k (or_introl eq_refl)).
      replace (k <? 0)%Z with false by (symmetry; apply Z.ltb_ge; lia).
      destruct (Z.to_nat k) eqn:Ek; [lia|]. discriminate.
    + apply IH; [|assumption]. intros k' Hk'. apply Hk. now right.
  - constructor; [discriminate|]. apply IH; [|assumption]. intros k' Hk'. apply Hk. now right.
Qed.

Section Predict.
  Context {V : Type} {N : Num V} {toX : V -> xr} (CL : CmpLaws V N toX).
  Variable argsort : list V -> list nat.
  Hypothesis AS : argsort_ok argsort.
  Variable rp : nat -> list nat -> list nat.
  Hypothesis RP : forall i l, Permutation (rp i l) l.
  Variable sh : nat -> nat -> list nat -> list nat.
  Hypothesis SH : forall i j l, Permutation (sh i j l) l.

  Lemma predict_loo (D : arr2 V) (target : list (list Z)) ks metric c :
    nrow D = ncol D -> nrow D <= length target -> valid_metric metric = true ->
    (forall x, x < length target -> length (nth x target []) = c) ->
    (forall k, In k ks -> (0 < k)%Z) ->
    let cl := unique_labels (concat target) in
    let classes := map (map (class_index cl)) target in
    exists y, predict argsort rp sh D target ks metric None None = Ok y /\
      length y = nrow D /\
      forall i, i < nrow D -> length (nth i y []) = length ks /\
      forall j, j < length ks -> length (nth j (nth i y []) []) = c /\
      forall l, l < c ->
        nth l (nth j (nth i y []) []) 0 =
        nth j (knn_point argsort rp sh metric false D ks (length cl)
                 (map (fun r => nth l r 0) classes) (seq 0 (nrow D)) i) 0 /\
        nth j (knn_voters (knn_row metric false D i) (sh i) 0 ks
                 (knn_idx argsort metric (knn_row metric false D i) (rp i (seq 0 (nrow D))))) [] <> [].
  Proof.
    intros Hsq HT Hv Hc Hk cl classes. unfold predict.
    assert (C1 : check_distance_matrix_shape (Dense [nrow D; ncol D]) = Ok tt)
      by (unfold check_distance_matrix_shape, check_is_nD_array, dim0, dim1; simpl; now rewrite Hsq, Nat.eqb_refl).
    assert (C3 : check_valid_metric_parameter metric = Ok tt)
      by (unfold check_valid_metric_parameter, valid_metric in *;
          destruct (is_dist metric), (is_sim metric); simpl in *; auto; discriminate).
    rewrite C1, C3. cbn [bind guard].
    replace (length target <? nrow D) with false by (symmetry; apply Nat.ltb_ge; lia). cbn [bind guard].
    fold cl. fold classes. set (n := nrow D) in *.
    set (vot := fun i => knn_voters (knn_row metric false D i) (sh i) 0 ks
                 (knn_idx argsort metric (knn_row metric false D i) (rp i (seq 0 n)))).
    assert (Hvot : forall i, i < n -> Forall (fun nn => nn <> []) (vot i)).
    { intros i Hi. unfold vot. apply voters_nonempty; [apply SH|assumption|].
      pose proof (rk_in _ _ _ (point_rank CL argsort AS rp RP metric false D (seq 0 n) i (seq_NoDup n 0)) i) as B.
      cbv beta in B. intros E. rewrite E in B. apply B. split; [apply in_seq; lia|].
      rewrite row_loo by lia. unfold rank_value, worst. rewrite Nat.eqb_refl.
      destruct (is_sim metric); [apply (ninf_not_nan CL)|apply (inf_not_nan CL)]. }
    set (f := fun (i : nat) (nn : list nat) => map (fun l => knn_vote 0 (map (fun x => nth l (nth x classes []) 0) nn)) (seq 0 (length (nth 0 target [])))).
    rewrite (mapM_ok_map _ (fun i => map (f i) (vot i))).
    2:{ intros i Hi. apply in_seq in Hi. cbv beta zeta. fold (vot i).
        rewrite (mapM_ok_map _ (f i)); [reflexivity|]. intros nn Hnn. unfold f.
        apply mapM_ok_map. intros l _. unfold predict_vote.
        specialize (Hvot i ltac:(lia)). rewrite Forall_forall in Hvot. specialize (Hvot nn Hnn).
        destruct nn; [congruence|]. reflexivity. }
    eexists. split; [reflexivity|]. split; [now rewrite map_length, seq_length|].
    intros i Hi. rewrite nth_map_seq by assumption.
    assert (Lv : length (vot i) = length ks) by apply voters_length.
    assert (Hn0 : n <> 0) by lia.
    assert (Hc0 : length (nth 0 target []) = c) by (apply Hc; lia).
    split; [now rewrite map_length|]. intros j Hj.
    assert (Enj : nth j (map (f i) (vot i)) [] = f i (nth j (vot i) [])).
    { rewrite nth_indep with (d' := f i []) by (rewrite map_length; lia). apply map_nth. }
    rewrite Enj. unfold f at 1. rewrite map_length, seq_length. split; [assumption|].
    intros l Hl.
    assert (Hnn : nth j (vot i) [] <> []).
    { specialize (Hvot i Hi). rewrite Forall_forall in Hvot. apply Hvot, nth_In. lia. }
    split; [|exact Hnn].
    unfold f. rewrite nth_map_seq by lia. unfold knn_point. fold (vot i).
    rewrite (nth_map_in (fun nn => knn_vote (length cl) (take 0 (map (fun r => nth l r 0) classes) nn)) (vot i) j 0 []) by lia.
    rewrite (vote_indep 0 (length cl)) by (intros E; now apply map_eq_nil in E).
    f_equal. unfold take. apply map_ext_in. intros x Hx.
    assert (Hxn : In x (seq 0 n)).
    { eapply (voter_cand CL argsort AS rp RP sh SH metric false D ks (seq 0 n) i (seq_NoDup n 0)); [|exact Hx].
      unfold vot. apply nth_In. now rewrite voters_length. }
    apply in_seq in Hxn.
    now rewrite (nth_map_in (fun r => nth l r 0) classes x 0 []) by (unfold classes; rewrite map_length; lia).
  Qed.

  Lemma nth_concat (target : list (list Z)) x l : x < length target -> l < length (nth x target []) ->
    In (nth l (nth x target []) 0%Z) (concat target).
  Proof. intros Hx Hl. apply in_concat. exists (nth x target []). split; now apply nth_In. Qed.

  (** the predictions are ranks of elected labels *)
  Lemma predict_elected (D : arr2 V) (target : list (list Z)) ks metric c :
    nrow D = ncol D -> nrow D <= length target -> valid_metric metric = true ->
    (forall x, x < length target -> length (nth x target []) = c) ->
    (forall k, In k ks -> (0 < k)%Z) ->
    let cl := unique_labels (concat target) in
    exists y, predict argsort rp sh D target ks metric None None = Ok y /\
      length y = nrow D /\
      forall i, i < nrow D -> length (nth i y []) = length ks /\
      forall j, j < length ks -> length (nth j (nth i y []) []) = c /\
      forall l, l < c ->
        nth l (nth j (nth i y []) []) 0 < length cl /\
        (has_finite_neighbor metric D i ->
         elected (map (fun x => nth l (nth x target []) 0%Z)
             (filter (fun x => nisfin (rank_value metric D i x))
                (prefix (m_idx argsort rp metric false D (seq 0 (nrow D)) i) (nth j ks 0%Z))))
           (nth (nth l (nth j (nth i y []) []) 0) cl 0%Z)).
  Proof.
    intros Hsq HT Hv Hc Hk cl.
    destruct (predict_loo D target ks metric c Hsq HT Hv Hc Hk) as (y & Ey & Ly & H).
    exists y. split; [assumption|]. split; [assumption|]. intros i Hi.
    destruct (H i Hi) as (Li & Hj'). split; [assumption|]. intros j Hj.
    destruct (Hj' j Hj) as (Lj & Hl'). split; [assumption|]. intros l Hl.
    destruct (Hl' l Hl) as (E & Hne). fold cl in E. rewrite E.
    set (classes := map (map (class_index cl)) target) in *.
    assert (Hvc : forall x, In x (seq 0 (nrow D)) ->
       nth x (map (fun r => nth l r 0) classes) 0 = class_index cl (nth l (nth x target []) 0%Z) /\
       In (nth l (nth x target []) 0%Z) cl).
    { intros x Hx. apply in_seq in Hx. assert (Hxt : x < length target) by lia. split.
      - unfold classes. rewrite map_map.
        rewrite (nth_map_in (fun r => nth l (map (class_index cl) r) 0) target x 0 []) by assumption.
        apply nth_map_in. now rewrite Hc.
      - apply unique_In, nth_concat; [assumption|]. rewrite Hc; assumption. }
    assert (Hcl : cl <> []).
    { destruct (Hvc i ltac:(apply in_seq; lia)) as (_ & Hin). intros E'. rewrite E' in Hin. contradiction. }
    split.
    - eapply (point_range CL argsort AS rp RP sh SH) with (vl := fun x => nth l (nth x target []) 0%Z); auto;
        first [apply seq_NoDup | apply unique_NoDup].
    - intros ((x0 & Hx0 & Hx0i & Hx0f) & Hall).
      set (cnd := seq 0 (nrow D)) in *.
      assert (HrowD : forall x, In x cnd -> nth x (knn_row metric false D i) nnan = rank_value metric D i x)
        by (intros x Hx; apply in_seq in Hx; apply row_loo; lia).
      assert (Hinc : forall k, incl (prefix (m_idx argsort rp metric false D cnd i) k) cnd).
      { intros k x Hx. apply prefix_incl in Hx. unfold m_idx in Hx.
        now apply (rk_in _ _ _ (point_rank CL argsort AS rp RP metric false D cnd i (seq_NoDup _ _))) in Hx. }
      assert (Hf : forall k, filter (fun x => nisfin (rank_value metric D i x)) (prefix (m_idx argsort rp metric false D cnd i) k) =
         filter (fun x => nisfin (nth x (knn_row metric false D i) nnan)) (prefix (m_idx argsort rp metric false D cnd i) k)).
      { intros k. apply filter_ext_in. intros x Hx. rewrite HrowD; [reflexivity|]. eapply Hinc; eauto. }
      rewrite Hf.
      apply (point_elected CL argsort AS rp RP sh SH); auto; try apply unique_NoDup; try apply seq_NoDup.
      intros j' Hj''. apply (point_near CL argsort AS rp RP); auto; try apply seq_NoDup; try lia.
      + exists x0. split; [apply in_seq; lia|]. rewrite HrowD by (apply in_seq; lia). unfold rank_value.
        now rewrite (proj2 (Nat.eqb_neq x0 i) Hx0i).
      + intros x Hx. rewrite HrowD by assumption. apply in_seq in Hx. unfold rank_value.
        destruct (Nat.eqb_spec x i) as [->|Hxi].
        * right; right. unfold worst. destruct (is_sim metric); apply (neq_refl CL).
          -- unfold ok. apply (ninf_not_nan CL).
          -- unfold ok. apply (inf_not_nan CL).
        * apply Hall; lia.
  Qed.
End Predict.
