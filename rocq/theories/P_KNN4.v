(** Lemmas behind Properties_KNN. *)
From Coq Require Import String.
From Coq Require Import ZArith List Arith Lia Bool Permutation Sorting.
From Verif Require Import Py Num Arr Sort S_Neighbors S_SNN S_KNN M_IO M_GK M_SNN M_KNN P_GK P_GK2 P_SNN P_KNN P_KNN2 P_KNN3.
Import ListNotations.
Local Open Scope nat_scope.

Lemma sorted_unique (a b : list Z) : StronglySorted Z.lt a -> StronglySorted Z.lt b ->
  (forall x, In x a <-> In x b) -> a = b.
Proof.
  intros Ha. revert b. induction Ha as [|x a Ha IH Hf]; intros b Hb H.
  - destruct b as [|y b]; [reflexivity|]. destruct (proj2 (H y) (or_introl eq_refl)).
  - destruct Hb as [|y b Hb Hg]; [destruct (proj1 (H x) (or_introl eq_refl))|].
    rewrite Forall_forall in Hf, Hg.
    assert (x = y).
    { destruct (proj1 (H x) (or_introl eq_refl)) as [->|Hx]; [reflexivity|].
      destruct (proj2 (H y) (or_introl eq_refl)) as [->|Hy]; [reflexivity|].
      specialize (Hf y Hy). specialize (Hg x Hx). lia. }
    subst y. f_equal. apply IH; [assumption|]. intros z. split; intros Hz.
    + destruct (proj1 (H z) (or_intror Hz)) as [->|]; [|assumption]. specialize (Hf z Hz). lia.
    + destruct (proj2 (H z) (or_intror Hz)) as [->|]; [|assumption]. specialize (Hg z Hz). lia.
Qed.

Lemma distinct_unique lab cl : distinct_sorted lab cl -> cl = unique_labels lab.
Proof.
  intros (H1 & H2). apply sorted_unique; [assumption|apply unique_sorted|].
  intros x. now rewrite H2, unique_In.
Qed.

Lemma fold_left_ext_in {A B} (f g : B -> A -> B) l : forall s,
  (forall s x, In x l -> f s x = g s x) -> fold_left f l s = fold_left g l s.
Proof.
  induction l as [|x l IH]; intros s H; simpl; [reflexivity|].
  rewrite H by now left. apply IH. intros; apply H; now right.
Qed.

Section K.
  Context {V : Type} {N : Num V} {toX : V -> xr} (CL : CmpLaws V N toX).
  Variable argsort : list V -> list nat.
  Hypothesis AS : argsort_ok argsort.
  Variable rp : nat -> list nat -> list nat.
  Hypothesis RP : forall i l, Permutation (rp i l) l.
  Variable sh : nat -> nat -> list nat -> list nat.
  Hypothesis SH : forall i j l, Permutation (sh i j l) l.

  Lemma m_consistent metric sampled (D : arr2 V) lab ks n points vclasses cand vl j s :
    n = length points ->
    (forall i, In i points -> i < length lab) -> NoDup cand ->
    (forall x, In x cand -> nth x vclasses 0 = class_index (unique_labels lab) (vl x) /\ In (vl x) (unique_labels lab)) ->
    nth_error (m_out argsort rp sh metric sampled D lab ks n points vclasses cand) j = Some s ->
    consistent points (fun i => nth i lab 0%Z) (unique_labels lab) (k_acc s) (k_corr s) (k_cmat s).
  Proof.
    intros Hn Hpt Hc Hvc Hs.
    destruct (m_describes CL argsort AS rp RP sh SH metric sampled D lab ks n points vclasses cand vl Hpt Hc Hvc)
      as (_ & H). destruct (H j s Hs) as (Hd & Ha).
    destruct (describes_sums _ _ _ _ _ _ (unique_NoDup lab) Hd) as (S1 & S2 & S3).
    { intros i Hi. apply unique_In, nth_In. auto. }
    split; auto.
    - apply (de_other _ _ _ _ _ _ Hd).
    - rewrite Ha, acc_rep_iter, <- Hn. unfold cnt. f_equal. f_equal.
      apply filter_ext_in. intros i Hi. symmetry. now apply (de_corr _ _ _ _ _ _ Hd).
  Qed.

  Lemma worst_ok metric : nisnan (worst (V:=V) metric) = false.
  Proof. unfold worst. destruct (is_sim metric); [apply (ninf_not_nan CL)|apply (inf_not_nan CL)]. Qed.
  Lemma worst_neq metric : neq (worst (V:=V) metric) (worst metric) = true.
  Proof. apply (neq_refl CL). unfold ok. apply worst_ok. Qed.
  Lemma worst_nfin metric : nisfin (worst (V:=V) metric) = false.
  Proof. unfold worst. destruct (is_sim metric); [apply (ninf_not_fin CL)|apply (inf_not_fin CL)]. Qed.

  Lemma hfn_val metric (D : arr2 V) i : has_finite_neighbor metric D i ->
    (exists x, In x (seq 0 (ncol D)) /\ nisfin (rank_value metric D i x) = true) /\
    (forall x, In x (seq 0 (ncol D)) -> nisfin (rank_value metric D i x) = true \/
       nisnan (rank_value metric D i x) = true \/ neq (rank_value metric D i x) (worst metric) = true).
  Proof.
    intros ((x0 & Hx0 & Hi & Hf) & Hall). unfold rank_value. split.
    - exists x0. split; [apply in_seq; lia|]. now rewrite (proj2 (Nat.eqb_neq x0 i) Hi).
    - intros x Hx. apply in_seq in Hx. destruct (Nat.eqb_spec x i) as [->|Hne].
      + right; right. apply worst_neq.
      + apply Hall; [lia|assumption].
  Qed.

  (** leave-one-out, everything at once *)
  Lemma loo_full (D : arr2 V) lab ks metric : nrow D = ncol D -> length lab = nrow D -> valid_metric metric = true ->
    let idx := m_idx argsort rp metric false D (seq 0 (nrow D)) in
    exists out pred,
      score argsort rp sh D lab ks metric None None = Ok out /\ length out = length ks /\
      (forall j s, nth_error out j = Some s ->
         describes (seq 0 (nrow D)) (fun i => nth i lab 0%Z) (unique_labels lab) (pred j) (k_corr s) (k_cmat s) /\
         consistent (seq 0 (nrow D)) (fun i => nth i lab 0%Z) (unique_labels lab) (k_acc s) (k_corr s) (k_cmat s)) /\
      forall i, i < nrow D ->
        ranking (fun x y => nearer metric (rank_value metric D i x) (rank_value metric D i y))
          (fun x => x < nrow D /\ nisnan (rank_value metric D i x) = false) (idx i) /\
        (forall j, j < length ks ->
          (forall j', j' <= j -> filter (fun x => nisfin (rank_value metric D i x)) (prefix (idx i) (nth j' ks 0%Z)) <> []) ->
          elected (map (fun x => nth x lab 0%Z) (filter (fun x => nisfin (rank_value metric D i x))
                     (prefix (idx i) (nth j ks 0%Z)))) (pred j i)) /\
        (has_finite_neighbor metric D i -> (forall k, In k ks -> (0 < k)%Z) -> forall j, j < length ks ->
          filter (fun x => nisfin (rank_value metric D i x)) (prefix (idx i) (nth j ks 0%Z)) <> []).
  Proof.
    intros Hsq HL Hv idx.
    set (vcl := map (class_index (unique_labels lab)) lab).
    assert (Hpt : forall i, In i (seq 0 (nrow D)) -> i < length lab) by (intros i Hi; apply in_seq in Hi; lia).
    assert (Hnd : NoDup (seq 0 (nrow D))) by apply seq_NoDup.
    assert (Hvc : forall x, In x (seq 0 (nrow D)) -> nth x vcl 0 = class_index (unique_labels lab) (nth x lab 0%Z) /\
       In (nth x lab 0%Z) (unique_labels lab)) by (intros x Hx; apply loo_vc; now rewrite HL).
    assert (Hrow : forall i x, In i (seq 0 (nrow D)) -> In x (seq 0 (nrow D)) ->
       nth x (knn_row metric false D i) nnan = rank_value metric D i x)
      by (intros i x _ Hx; apply in_seq in Hx; apply row_loo; lia).
    destruct (m_describes CL argsort AS rp RP sh SH metric false D lab ks (nrow D) _ vcl _ _ Hpt Hnd Hvc) as (L & Hd).
    eexists. exists (m_pred argsort rp sh metric false D lab ks vcl (seq 0 (nrow D))).
    split; [now apply score_loo|]. split; [exact L|]. split.
    { intros j s Hs. split; [now apply Hd|].
      eapply (m_consistent metric false D lab ks (nrow D) (seq 0 (nrow D)) vcl (seq 0 (nrow D)) (fun x => nth x lab 0%Z) j s); auto.
      now rewrite seq_length. }
    intros i Hi. assert (Hin : In i (seq 0 (nrow D))) by (apply in_seq; lia).
    split; [|split].
    - destruct (m_rank CL argsort AS rp RP metric false D _ _ _ Hnd Hrow i Hin) as [A B C].
      split; [exact A| |exact C]. intros x. unfold idx. rewrite (B x), in_seq. intuition lia.
    - intros j Hj H. now apply (m_elected CL argsort AS rp RP sh SH metric false D lab ks _ vcl _ _ (rank_value metric D) Hnd Hvc Hrow i j Hin Hj).
    - intros Hf Hk j Hj. destruct (hfn_val metric D i Hf) as (F1 & F2). rewrite <- Hsq in F1, F2.
      now apply (m_near CL argsort AS rp RP metric false D ks _ _ _ Hnd Hrow i j Hin Hv F1 F2 Hk Hj).
  Qed.

  (** sample mode *)
  Lemma sample_full (D : arr2 V) lab ks metric s0 : length s0 = ncol D -> ncol D <= nrow D ->
    length lab = nrow D -> valid_metric metric = true -> (forall x, In x s0 -> x < nrow D) ->
    let idx := m_idx argsort rp metric true (set_cells s0 (knn_self metric) D) (seq 0 (length s0)) in
    exists out pred,
      score argsort rp sh D lab ks metric None (Some s0) = Ok out /\ length out = length ks /\
      (forall j s, nth_error out j = Some s ->
         describes (seq 0 (nrow D)) (fun i => nth i lab 0%Z) (unique_labels lab) (pred j) (k_corr s) (k_cmat s) /\
         consistent (seq 0 (nrow D)) (fun i => nth i lab 0%Z) (unique_labels lab) (k_acc s) (k_corr s) (k_cmat s)) /\
      forall i, i < nrow D ->
        ranking (fun x y => nearer metric (rank_value_s metric D s0 i x) (rank_value_s metric D s0 i y))
          (fun x => x < length s0 /\ nisnan (rank_value_s metric D s0 i x) = false) (idx i) /\
        (forall j, j < length ks ->
          (forall j', j' <= j -> filter (fun x => nisfin (rank_value_s metric D s0 i x)) (prefix (idx i) (nth j' ks 0%Z)) <> []) ->
          elected (map (fun x => nth (nth x s0 0) lab 0%Z) (filter (fun x => nisfin (rank_value_s metric D s0 i x))
                     (prefix (idx i) (nth j ks 0%Z)))) (pred j i)).
  Proof.
    intros Hs0 Hle HL Hv Hr idx.
    set (vcl := take 0 (map (class_index (unique_labels lab)) lab) s0).
    set (D' := set_cells s0 (knn_self metric) D).
    assert (Hpt : forall i, In i (seq 0 (nrow D)) -> i < length lab) by (intros i Hi; apply in_seq in Hi; lia).
    assert (Hnd : NoDup (seq 0 (length s0))) by apply seq_NoDup.
    assert (Hvc : forall x, In x (seq 0 (length s0)) -> nth x vcl 0 = class_index (unique_labels lab) (nth (nth x s0 0) lab 0%Z) /\
       In (nth (nth x s0 0) lab 0%Z) (unique_labels lab)) by (intros x Hx; apply sample_vc; [rewrite HL|]; assumption).
    assert (Hrow : forall i x, In i (seq 0 (nrow D)) -> In x (seq 0 (length s0)) ->
       nth x (knn_row metric true D' i) nnan = rank_value_s metric D s0 i x)
      by (intros i x _ Hx; apply in_seq in Hx; apply row_sample; lia).
    destruct (m_describes CL argsort AS rp RP sh SH metric true D' lab ks (nrow D) _ vcl _ _ Hpt Hnd Hvc) as (L & Hd).
    eexists. exists (m_pred argsort rp sh metric true D' lab ks vcl (seq 0 (length s0))).
    split; [now apply score_sample|]. split; [exact L|]. split.
    { intros j s Hs. split; [now apply Hd|].
      eapply (m_consistent metric true D' lab ks (nrow D) (seq 0 (nrow D)) vcl (seq 0 (length s0)) (fun x => nth (nth x s0 0) lab 0%Z) j s); auto.
      now rewrite seq_length. }
    intros i Hi. assert (Hin : In i (seq 0 (nrow D))) by (apply in_seq; lia).
    split.
    - destruct (m_rank CL argsort AS rp RP metric true D' _ _ _ Hnd Hrow i Hin) as [A B C].
      split; [exact A| |exact C]. intros x. unfold idx. fold D'. rewrite (B x), in_seq. intuition lia.
    - intros j Hj H. now apply (m_elected CL argsort AS rp RP sh SH metric true D' lab ks _ vcl _ _ (rank_value_s metric D s0) Hnd Hvc Hrow i j Hin Hj).
  Qed.

  (** test set mode *)
  Lemma test_full (D : arr2 V) lab ks metric t : nrow D = ncol D -> length lab = nrow D -> valid_metric metric = true ->
    NoDup t -> (forall x, In x t -> x < nrow D) ->
    exists out pred,
      score argsort rp sh D lab ks metric (Some t) None = Ok out /\ length out = length ks /\
      (forall j s, nth_error out j = Some s ->
         describes t (fun i => nth i lab 0%Z) (unique_labels lab) (pred j) (k_corr s) (k_cmat s) /\
         consistent t (fun i => nth i lab 0%Z) (unique_labels lab) (k_acc s) (k_corr s) (k_cmat s)) /\
      forall i j, In i t -> j < length ks ->
        pred j i = nth (length (unique_labels lab) - 1) (unique_labels lab) 0%Z \/
        exists x, x < length t /\ ~ In x t /\ pred j i = nth x lab 0%Z.
  Proof.
    intros Hsq HL Hv Hn Hr.
    set (vcl := map (class_index (unique_labels lab)) lab).
    assert (Hpt : forall i, In i t -> i < length lab) by (intros i Hi; rewrite HL; auto).
    assert (Hnd : NoDup (test_cand t)) by apply NoDup_filter, seq_NoDup.
    assert (Hlt : length t <= length lab) by (rewrite HL; now apply NoDup_bounded).
    assert (Hvc : forall x, In x (test_cand t) -> nth x vcl 0 = class_index (unique_labels lab) (nth x lab 0%Z) /\
       In (nth x lab 0%Z) (unique_labels lab)) by (intros x Hx; eapply test_vc; eauto).
    destruct (m_describes CL argsort AS rp RP sh SH metric false D lab ks (length t) t vcl _ _ Hpt Hnd Hvc) as (L & Hd).
    eexists. exists (m_pred argsort rp sh metric false D lab ks vcl (test_cand t)).
    split; [now apply score_test|]. split; [exact L|]. split.
    { intros j s Hs. split; [now apply Hd|].
      eapply (m_consistent metric false D lab ks (length t) t vcl (test_cand t) (fun x => nth x lab 0%Z) j s); auto. }
    intros i j Hi Hj.
    destruct (m_from CL argsort AS rp RP sh SH metric false D lab ks t vcl (test_cand t) (fun x => nth x lab 0%Z) Hnd Hvc i j Hi Hj)
      as [E|(x & Hx & E)]; [now left|]. right. exists x. apply test_cand_In in Hx. tauto.
  Qed.

  Lemma test_ignores (D D' : arr2 V) lab ks metric t : nrow D = ncol D -> nrow D' = nrow D -> ncol D' = ncol D ->
    length lab = nrow D -> valid_metric metric = true ->
    NoDup t -> (forall x, In x t -> x < nrow D) ->
    (forall i x, In i t -> x < length t -> ~ In x t -> at2 D i x = at2 D' i x) ->
    score argsort rp sh D lab ks metric (Some t) None = score argsort rp sh D' lab ks metric (Some t) None.
  Proof.
    intros Hsq HR HC HL Hv Hn Hr H. rewrite !score_test by (auto; try congruence; now rewrite HR). f_equal.
    unfold m_out. apply fold_left_ext_in. intros st i Hi. f_equal. unfold m_point, knn_point.
    pose proof (NoDup_bounded t _ Hn Hr) as Hlt.
    assert (Hrow : forall x, In x (test_cand t) -> nth x (knn_row metric false D i) nnan = nth x (knn_row metric false D' i) nnan).
    { intros x Hx. apply test_cand_In in Hx. rewrite !row_loo by lia. unfold rank_value.
      destruct (x =? i); [reflexivity|]. apply H; tauto. }
    f_equal. rewrite (idx_ext argsort metric (knn_row metric false D i) (knn_row metric false D' i)).
    - apply voters_ext; [apply SH|]. intros x Hx. f_equal. apply Hrow.
      apply (rk_in _ _ _ (point_rank CL argsort AS rp RP metric false D' (test_cand t) i (NoDup_filter _ (seq_NoDup _ _)))) in Hx.
      tauto.
    - intros x Hx. apply Hrow. eapply Permutation_in; [apply RP|exact Hx].
  Qed.

  Lemma loo_same_prediction (D : arr2 V) lab lab' ks metric i : nrow D = ncol D ->
    length lab = nrow D -> length lab' = nrow D -> valid_metric metric = true -> i < nrow D ->
    (forall x, x <> i -> nth x lab' 0%Z = nth x lab 0%Z) ->
    (forall k, In k ks -> (0 < k)%Z) -> has_finite_neighbor metric D i ->
    exists out out' p,
      score argsort rp sh D lab ks metric None None = Ok out /\
      score argsort rp sh D lab' ks metric None None = Ok out' /\
      length out = length ks /\ length out' = length ks /\
      (forall j, j < length ks -> exists x, x < nrow D /\ x <> i /\ p j = nth x lab 0%Z) /\
      forall j s s', nth_error out j = Some s -> nth_error out' j = Some s' ->
        k_corr s i = (nth i lab 0 =? p j)%Z /\ k_corr s' i = (nth i lab' 0 =? p j)%Z.
  Proof.
    intros Hsq HL HL' Hv Hi Heq Hk Hf.
    destruct (loo_full D lab ks metric Hsq HL Hv) as (out & pred & E & L & Hd & Hr).
    destruct (loo_full D lab' ks metric Hsq HL' Hv) as (out' & pred' & E' & L' & Hd' & Hr').
    exists out, out', (fun j => pred j i). split; [exact E|]. split; [exact E'|].
    split; [exact L|]. split; [exact L'|].
    destruct (Hr i Hi) as (Rk & El & Ne). destruct (Hr' i Hi) as (_ & El' & _).
    set (idx := m_idx argsort rp metric false D (seq 0 (nrow D))) in *.
    assert (Hne : forall j, j < length ks -> forall j', j' <= j ->
      filter (fun x => nisfin (rank_value metric D i x)) (prefix (idx i) (nth j' ks 0%Z)) <> [])
      by (intros j Hj j' Hj'; apply Ne; auto; lia).
    assert (Hvot : forall k x, In x (filter (fun x => nisfin (rank_value metric D i x)) (prefix (idx i) k)) -> x < nrow D /\ x <> i).
    { intros k x Hx. apply filter_In in Hx. destruct Hx as (Hx & Hfx). split.
      - apply prefix_incl in Hx. now apply (rk_in _ _ _ Rk) in Hx.
      - intros ->. unfold rank_value in Hfx. rewrite Nat.eqb_refl, worst_nfin in Hfx. discriminate. }
    assert (Hsame : forall j, j < length ks -> pred j i = pred' j i).
    { intros j Hj. specialize (El j Hj (Hne j Hj)). specialize (El' j Hj (Hne j Hj)).
      rewrite (map_ext_in _ (fun x => nth x lab 0%Z)) in El'.
      - eapply elected_unique; eauto.
      - intros x Hx. apply Hvot in Hx. apply Heq. tauto. }
    split.
    - intros j Hj. specialize (El j Hj (Hne j Hj)). specialize (Hne j Hj j (le_n j)).
      set (nn := filter (fun x => nisfin (rank_value metric D i x)) (prefix (idx i) (nth j ks 0%Z))) in *.
      assert (Hin : In (pred j i) (map (fun x => nth x lab 0%Z) nn)).
      { destruct El as [P|(_ & En)]; [|now apply nth_error_In in En].
        destruct (in_dec Z.eq_dec (pred j i) (map (fun x => nth x lab 0%Z) nn)) as [|Hn]; [assumption|].
        destruct nn as [|x nn]; [congruence|]. cbn [map] in *.
        specialize (P (nth x lab 0%Z) ltac:(intros Ex; apply Hn; left; exact Ex)).
        unfold zvotes in P. apply (count_occ_not_In Z.eq_dec) in Hn. lia. }
      apply in_map_iff in Hin. destruct Hin as (x & Ex & Hx). apply Hvot in Hx. destruct Hx as (Hx1 & Hx2).
      exists x. split; [exact Hx1|]. split; [exact Hx2|]. now symmetry.
    - intros j s s' Hs Hs'. assert (Hj : j < length ks) by (rewrite <- L; apply nth_error_Some; congruence).
      split.
      + apply (de_corr _ _ _ _ _ _ (proj1 (Hd j s Hs))). apply in_seq. lia.
      + rewrite Hsame by assumption. apply (de_corr _ _ _ _ _ _ (proj1 (Hd' j s' Hs'))). apply in_seq. lia.
  Qed.
End K.
