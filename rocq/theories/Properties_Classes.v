(** Property C184: what knn_classification.py score does when the classes get other
    names.  The model is [M_KNN.score] (knn_classification.py:25-255). *)
From Coq Require Import String.
From Coq Require Import ZArith Reals List Arith Lia Bool Permutation Sorting.
From Verif Require Import Py Num Arr Sort S_Neighbors S_SNN S_KNN M_IO M_GK M_SNN M_KNN.
From Verif Require Import P_F64 P_GK2 P_SNN P_KNN P_KNN2 P_KNN3 P_KNN4 Properties_KNN.
Import ListNotations.
Local Open Scope nat_scope.

(** ** the sorted distinct labels under an increasing renaming *)
Lemma uinsert_map (f : Z -> Z) x : forall l,
  (forall y, In y l -> ((x < y)%Z -> (f x < f y)%Z) /\ ((y < x)%Z -> (f y < f x)%Z)) ->
  uinsert (f x) (map f l) = map f (uinsert x l).
Proof.
  induction l as [|y l IH]; intros H; [reflexivity|]. cbn [map uinsert].
  destruct (H y (or_introl eq_refl)) as (H1 & H2).
  destruct (Z.ltb_spec x y) as [L|L].
  - rewrite (proj2 (Z.ltb_lt _ _) (H1 L)). reflexivity.
  - destruct (Z.eqb_spec x y) as [->|Ne].
    + rewrite (proj2 (Z.ltb_ge (f y) (f y)) (Z.le_refl _)), Z.eqb_refl. reflexivity.
    + assert (Lf : (f y < f x)%Z) by (apply H2; lia).
      rewrite (proj2 (Z.ltb_ge _ _) (Z.lt_le_incl _ _ Lf)).
      destruct (Z.eqb_spec (f x) (f y)) as [E|_]; [lia|].
      cbn [map]. f_equal. apply IH. intros z Hz. apply H. now right.
Qed.

Definition increasing_on (f : Z -> Z) (l : list Z) : Prop :=
  forall x y, In x l -> In y l -> (x < y)%Z -> (f x < f y)%Z.
Definition injective_on (f : Z -> Z) (l : list Z) : Prop :=
  forall x y, In x l -> In y l -> f x = f y -> x = y.

Lemma increasing_injective f l : increasing_on f l -> injective_on f l.
Proof.
  intros H x y Hx Hy E. destruct (Z.lt_trichotomy x y) as [L|[L|L]]; [|assumption|].
  - specialize (H x y Hx Hy L). lia.
  - specialize (H y x Hy Hx L). lia.
Qed.

Lemma unique_map f : forall l, increasing_on f l -> unique_labels (map f l) = map f (unique_labels l).
Proof.
  induction l as [|x l IH]; intros H; [reflexivity|]. cbn [map unique_labels fold_right].
  change (fold_right uinsert [] (map f l)) with (unique_labels (map f l)).
  change (fold_right uinsert [] l) with (unique_labels l).
  rewrite IH by (intros a b Ha Hb; apply H; now right).
  apply uinsert_map. intros y Hy. apply (proj1 (unique_In y l)) in Hy.
  split; intros L; apply H; try exact L; try (now left); right; exact Hy.
Qed.

Lemma class_index_map f cl t : injective_on f (t :: cl) -> class_index (map f cl) (f t) = class_index cl t.
Proof.
  induction cl as [|c cl IH]; intros H; [reflexivity|]. cbn [map class_index].
  destruct (Z.eqb_spec c t) as [->|Ne]; [now rewrite Z.eqb_refl|].
  destruct (Z.eqb_spec (f c) (f t)) as [E|_].
  - exfalso. apply Ne. apply H; [right; now left|now left|exact E].
  - f_equal. apply IH. intros a b Ha Hb. apply H; simpl in *; tauto.
Qed.

(** ** C184 (1): names that keep the order of the classes do not matter at all *)
Theorem C184_same_order :
  forall argsort rp sh (D : arr2 f64) lab ks metric test sample (f : Z -> Z),
    increasing_on f lab ->
    score argsort rp sh D (map f lab) ks metric test sample =
    score argsort rp sh D lab ks metric test sample.
Proof.
  intros argsort rp sh D lab ks metric test sample f Hf.
  assert (E : map (class_index (unique_labels (map f lab))) (map f lab) =
              map (class_index (unique_labels lab)) lab).
  { rewrite (unique_map f lab Hf), map_map. apply map_ext_in. intros t Ht. apply class_index_map.
    apply increasing_injective in Hf. intros a b Ha Hb. apply Hf.
    - destruct Ha as [<-|Ha]; [exact Ht|now apply unique_In].
    - destruct Hb as [<-|Hb]; [exact Ht|now apply unique_In]. }
  unfold score. rewrite E, map_length, (unique_map f lab Hf), map_length. reflexivity.
Qed.

(** ** the vote under an injective renaming *)
Lemma zvotes_map f l c : injective_on f (c :: l) -> zvotes (map f l) (f c) = zvotes l c.
Proof.
  unfold zvotes. induction l as [|x l IH]; intros H; [reflexivity|]. cbn [map count_occ].
  rewrite IH by (intros a b Ha Hb; apply H; simpl in *; tauto).
  destruct (Z.eq_dec x c) as [->|Ne].
  - destruct (Z.eq_dec (f c) (f c)); congruence.
  - destruct (Z.eq_dec (f x) (f c)) as [E|]; [|reflexivity].
    exfalso. apply Ne. apply H; simpl; auto.
Qed.
Lemma zvotes_out l c : ~ In c l -> zvotes l c = 0.
Proof. intros H. unfold zvotes. now apply count_occ_not_In. Qed.

Lemma plurality_in l c : l <> [] -> plurality l c -> In c l.
Proof.
  intros Hne P. destruct (in_dec Z.eq_dec c l) as [|Hn]; [assumption|]. exfalso.
  destruct l as [|x l]; [congruence|]. specialize (P x ltac:(intros ->; apply Hn; now left)).
  rewrite (zvotes_out _ _ Hn) in P. lia.
Qed.

Lemma elected_map f l c : l <> [] -> injective_on f l -> elected l c -> elected (map f l) (f c).
Proof.
  intros Hne Hi He.
  assert (I1 : forall d, In d l -> injective_on f (d :: l)).
  { intros d Hd a b Ha Hb. apply Hi.
    - destruct Ha as [<-|Ha]; assumption.
    - destruct Hb as [<-|Hb]; assumption. }
  assert (F : forall d, plurality l d -> plurality (map f l) (f d)).
  { intros d P c' Hc'. pose proof (plurality_in l d Hne P) as Hd. rewrite (zvotes_map f l d) by auto.
    destruct (in_dec Z.eq_dec c' (map f l)) as [Hin|Hout].
    - apply in_map_iff in Hin. destruct Hin as (e & <- & Hie). rewrite (zvotes_map f l e) by auto.
      apply P. intros ->. now apply Hc'.
    - rewrite (zvotes_out _ _ Hout). unfold zvotes. apply (count_occ_In Z.eq_dec). exact Hd. }
  assert (B : forall d, In d l -> plurality (map f l) (f d) -> plurality l d).
  { intros d Hd P c' Hc'. destruct (in_dec Z.eq_dec c' l) as [Hin|Hout].
    - rewrite <- (zvotes_map f l c'), <- (zvotes_map f l d) by auto. apply P.
      intros E. apply Hc'. now apply Hi.
    - rewrite (zvotes_out _ _ Hout). unfold zvotes. apply (count_occ_In Z.eq_dec). exact Hd. }
  destruct He as [P|(Q & E)]; [left; now apply F|right]. split.
  - intros d P. assert (Hd : In d (map f l)) by (apply plurality_in; [destruct l; [congruence|discriminate]|exact P]).
    apply in_map_iff in Hd. destruct Hd as (e & <- & He). apply (Q e). now apply B.
  - destruct l as [|x l]; [congruence|]. cbn in *. congruence.
Qed.

(** ** C184 (2): leave-one-out with any new names: the accuracy and the flags stay, the
    confusion matrix moves with the names.  [cl], [cl'] are the sorted distinct labels
    that index the two confusion matrices. *)
Theorem C184_any_names :
  forall argsort, argsort_ok argsort ->
  forall rp, (forall i l, Permutation (rp i l) l) ->
  forall sh, (forall (i j : nat) l, Permutation (sh i j l) l) ->
  forall (D : arr2 f64) lab ks metric (f : Z -> Z) cl cl',
    nrow D = ncol D -> length lab = nrow D -> valid_metric metric = true ->
    (forall k, In k ks -> (0 < k)%Z) -> (forall i, i < nrow D -> has_finite_neighbor metric D i) ->
    injective_on f lab -> distinct_sorted lab cl -> distinct_sorted (map f lab) cl' ->
    exists out out',
      score argsort rp sh D lab ks metric None None = Ok out /\
      score argsort rp sh D (map f lab) ks metric None None = Ok out' /\
      length out = length ks /\ length out' = length ks /\
      forall j s s', nth_error out j = Some s -> nth_error out' j = Some s' ->
        k_acc s' = k_acc s /\ (forall i, k_corr s' i = k_corr s i) /\
        forall a b a' b', a < length cl -> b < length cl -> a' < length cl' -> b' < length cl' ->
          nth a' cl' 0%Z = f (nth a cl 0%Z) -> nth b' cl' 0%Z = f (nth b cl 0%Z) ->
          k_cmat s' a' b' = k_cmat s a b.
Proof.
  intros argsort AS rp RP sh SH D lab ks metric f cl cl' Hsq HL Hv Hk Hf Hinj Hcl Hcl'.
  assert (HL' : length (map f lab) = nrow D) by now rewrite map_length.
  rewrite (distinct_unique _ _ Hcl), (distinct_unique _ _ Hcl').
  destruct (loo_full f64_cmp argsort AS rp RP sh SH D lab ks metric Hsq HL Hv) as (out & pred & E & L & Hd & Hr).
  destruct (loo_full f64_cmp argsort AS rp RP sh SH D (map f lab) ks metric Hsq HL' Hv) as (out' & pred' & E' & L' & Hd' & Hr').
  exists out, out'. split; [exact E|]. split; [exact E'|]. split; [exact L|]. split; [exact L'|].
  intros j s s' Hs Hs'.
  assert (Hj : j < length ks) by (rewrite <- L; apply nth_error_Some; congruence).
  assert (Hlab : forall i, i < nrow D -> nth i (map f lab) 0%Z = f (nth i lab 0%Z)).
  { intros i Hi. rewrite (nth_indep _ 0%Z (f 0%Z)) by lia. apply map_nth. }
  assert (Hin : forall i, i < nrow D -> In (nth i lab 0%Z) lab) by (intros i Hi; apply nth_In; lia).
  destruct (Hd j s Hs) as (De & Co). destruct (Hd' j s' Hs') as (De' & Co').
  assert (Hp : forall i, i < nrow D -> pred' j i = f (pred j i) /\ In (pred j i) lab).
  { intros i Hi. split.
    - destruct (Hr i Hi) as (Rk & El & Ne). destruct (Hr' i Hi) as (_ & El' & _).
      assert (Hne : forall j', j' <= j -> filter (fun x => nisfin (rank_value metric D i x))
        (prefix (m_idx argsort rp metric false D (seq 0 (nrow D)) i) (nth j' ks 0%Z)) <> []).
      { intros j' Hj'. apply Ne; auto; lia. }
      specialize (El j Hj Hne). specialize (El' j Hj Hne).
      set (nn := filter (fun x => nisfin (rank_value metric D i x))
        (prefix (m_idx argsort rp metric false D (seq 0 (nrow D)) i) (nth j ks 0%Z))) in *.
      assert (Hnn : forall x, In x nn -> x < nrow D).
      { intros x Hx. apply filter_In in Hx. destruct Hx as (Hx & _). apply prefix_incl in Hx.
        now apply (rk_in _ _ _ Rk) in Hx. }
      rewrite (map_ext_in _ (fun x => f (nth x lab 0%Z))) in El' by (intros x Hx; apply Hlab, Hnn, Hx).
      rewrite <- (map_map (fun x => nth x lab 0%Z) f) in El'.
      apply (elected_unique _ _ _ El'). apply elected_map; [|intros a b Ha Hb; apply Hinj|exact El].
      + pose proof (Hne j (le_n j)) as H0. fold nn in H0. destruct nn; [congruence|discriminate].
      + apply in_map_iff in Ha. destruct Ha as (x & <- & Hx). apply Hin, Hnn, Hx.
      + apply in_map_iff in Hb. destruct Hb as (x & <- & Hx). apply Hin, Hnn, Hx.
    - apply unique_In. apply (de_pred _ _ _ _ _ _ De). apply in_seq. lia. }
  assert (Feq : forall x y, In x lab -> In y lab -> (f x =? f y)%Z = (x =? y)%Z).
  { intros x y Hx Hy. destruct (Z.eqb_spec x y) as [->|Ne]; [apply Z.eqb_refl|].
    apply Z.eqb_neq. intros E0. apply Ne. now apply Hinj. }
  assert (Hc : forall i, k_corr s' i = k_corr s i).
  { intros i. destruct (lt_dec i (nrow D)) as [Hi|Hi].
    - assert (Hs0 : In i (seq 0 (nrow D))) by (apply in_seq; lia).
      rewrite (de_corr _ _ _ _ _ _ De i Hs0), (de_corr _ _ _ _ _ _ De' i Hs0), Hlab by assumption.
      destruct (Hp i Hi) as (-> & Hpl). apply Feq; auto.
    - rewrite (de_other _ _ _ _ _ _ De i), (de_other _ _ _ _ _ _ De' i); [reflexivity| |];
        intros H; apply in_seq in H; lia. }
  split; [|split; [exact Hc|]].
  - rewrite (co_acc _ _ _ _ _ _ Co), (co_acc _ _ _ _ _ _ Co').
    now rewrite (filter_ext_in (k_corr s') (k_corr s)) by (intros; apply Hc).
  - intros a b a' b' Ha Hb Ha' Hb' Ea Eb.
    rewrite (de_cmat _ _ _ _ _ _ De a b Ha Hb), (de_cmat _ _ _ _ _ _ De' a' b' Ha' Hb').
    f_equal. apply filter_ext_in. intros i Hi. apply in_seq in Hi.
    rewrite Ea, Eb, Hlab by lia. destruct (Hp i ltac:(lia)) as (-> & Hpl).
    assert (Ia : In (nth a (unique_labels lab) 0%Z) lab) by (apply unique_In, nth_In; exact Ha).
    assert (Ib : In (nth b (unique_labels lab) 0%Z) lab) by (apply unique_In, nth_In; exact Hb).
    rewrite !Feq; auto. apply Hin. lia.
Qed.

(** ** C184 (3): with test_set_ind = [0] the names alone decide whether object 0 counts as
    correctly classified: there are names under which it does and names under which it
    does not, for every matrix and all labels with at least two classes. *)
Lemma sorted_last l x : StronglySorted Z.lt l -> In x l -> (x <= last l 0)%Z.
Proof.
  intros H. revert x. induction H as [|y l Hs IH Hf]; intros x; [contradiction|].
  destruct l as [|z l].
  - intros [<-|[]]. simpl. lia.
  - change (last (y :: z :: l) 0%Z) with (last (z :: l) 0%Z). intros [<-|Hx]; [|now apply IH].
    rewrite Forall_forall in Hf. specialize (Hf z (or_introl eq_refl)).
    specialize (IH z (or_introl eq_refl)). lia.
Qed.
Lemma last_in (l : list Z) : l <> [] -> In (last l 0%Z) l.
Proof.
  induction l as [|x l IH]; [congruence|]. intros _. destruct l as [|y l]; [now left|].
  right. change (last (x :: y :: l) 0%Z) with (last (y :: l) 0%Z). apply IH. discriminate.
Qed.
Lemma above l : exists M, forall x : Z, In x l -> (Z.abs x < M)%Z.
Proof.
  induction l as [|y l (M & H)]; [exists 0%Z; contradiction|].
  exists (Z.max M (Z.abs y + 1))%Z. intros x [<-|Hx]; [lia|]. specialize (H x Hx). lia.
Qed.

Theorem C184_test_set_depends_on_names :
  forall argsort, argsort_ok argsort ->
  forall rp, (forall i l, Permutation (rp i l) l) ->
  forall sh, (forall (i j : nat) l, Permutation (sh i j l) l) ->
  forall (D : arr2 f64) lab ks metric x,
    nrow D = ncol D -> length lab = nrow D -> valid_metric metric = true ->
    x < nrow D -> nth x lab 0%Z <> nth 0 lab 0%Z ->
    exists f g out_f out_g, injective_on f lab /\ injective_on g lab /\
      score argsort rp sh D (map f lab) ks metric (Some [0]) None = Ok out_f /\
      score argsort rp sh D (map g lab) ks metric (Some [0]) None = Ok out_g /\
      length out_f = length ks /\ length out_g = length ks /\
      (forall s, In s out_f -> k_corr s 0 = true) /\ (forall s, In s out_g -> k_corr s 0 = false).
Proof.
  intros argsort AS rp RP sh SH D lab ks metric x Hsq HL Hv Hx Hne.
  destruct (above lab) as (M & HM). set (a := nth 0 lab 0%Z) in *.
  assert (Ha : In a lab) by (apply nth_In; lia).
  assert (Hb : In (nth x lab 0%Z) lab) by (apply nth_In; lia).
  set (f := fun t => if (t =? a)%Z then M else t). set (g := fun t => if (t =? a)%Z then (- M)%Z else t).
  assert (If : injective_on f lab).
  { intros u v Hu Hw. unfold f. pose proof (HM u Hu). pose proof (HM v Hw).
    destruct (Z.eqb_spec u a), (Z.eqb_spec v a); lia. }
  assert (Ig : injective_on g lab).
  { intros u v Hu Hw. unfold g. pose proof (HM u Hu). pose proof (HM v Hw).
    destruct (Z.eqb_spec u a), (Z.eqb_spec v a); lia. }
  assert (Hds : forall h : Z -> Z, distinct_sorted (map h lab) (unique_labels (map h lab))).
  { intros h. split; [apply unique_sorted|intros c; apply unique_In]. }
  destruct (C24_leading_test_set argsort AS rp RP sh SH D (map f lab) ks metric 1 (unique_labels (map f lab)) Hsq)
    as (of & Ef & Lf & Cf); [now rewrite map_length|exact Hv|lia|apply Hds|].
  destruct (C24_leading_test_set argsort AS rp RP sh SH D (map g lab) ks metric 1 (unique_labels (map g lab)) Hsq)
    as (og & Eg & Lg & Cg); [now rewrite map_length|exact Hv|lia|apply Hds|].
  exists f, g, of, og. split; [exact If|]. split; [exact Ig|]. split; [exact Ef|]. split; [exact Eg|].
  split; [exact Lf|]. split; [exact Lg|].
  assert (H0 : forall h : Z -> Z, nth 0 (map h lab) 0%Z = h a).
  { intros h. rewrite (nth_indep _ 0%Z (h 0%Z)) by (rewrite map_length; lia). apply map_nth. }
  split; intros s Hs.
  - rewrite (Cf s 0 Hs ltac:(lia)), H0. apply Z.eqb_eq. unfold f at 1. rewrite Z.eqb_refl.
    assert (Hin : In M (unique_labels (map f lab))).
    { apply unique_In, in_map_iff. exists a. split; [unfold f; now rewrite Z.eqb_refl|exact Ha]. }
    pose proof (sorted_last _ _ (unique_sorted (map f lab)) Hin) as H1.
    assert (H2 : In (last (unique_labels (map f lab)) 0%Z) (map f lab))
      by (apply unique_In, last_in; intros E0; rewrite E0 in Hin; contradiction).
    apply in_map_iff in H2. destruct H2 as (t & Et & Ht). pose proof (HM t Ht).
    unfold f in Et at 1. destruct (Z.eqb_spec t a); lia.
  - rewrite (Cg s 0 Hs ltac:(lia)), H0. apply Z.eqb_neq. unfold g at 1. rewrite Z.eqb_refl.
    assert (Hin : In (nth x lab 0%Z) (unique_labels (map g lab))).
    { apply unique_In, in_map_iff. exists (nth x lab 0%Z). split; [|exact Hb].
      unfold g. destruct (Z.eqb_spec (nth x lab 0%Z) a); congruence. }
    pose proof (sorted_last _ _ (unique_sorted (map g lab)) Hin) as H1. pose proof (HM _ Hb). lia.
Qed.

(** the hypotheses are met: four objects of two classes; the new names reverse the order *)
Example C184_case :
  exists s s', score ref_argsort (fun _ l => l) (fun _ _ l => l) sepD [1; 2; 1; 2]%Z [1%Z] "distance" None None = Ok [s] /\
    score ref_argsort (fun _ l => l) (fun _ _ l => l) sepD (map Z.opp [1; 2; 1; 2]%Z) [1%Z] "distance" None None = Ok [s'] /\
    injective_on Z.opp [1; 2; 1; 2]%Z /\ increasing_on (fun z => 3 * z + 7)%Z [1; 2; 1; 2]%Z /\
    (forall i, i < nrow sepD -> has_finite_neighbor "distance" sepD i) /\
    k_corr s 0 = true /\ k_corr s' 0 = true /\ k_cmat s 0 0 = 2 /\ k_cmat s' 1 1 = 2.
Proof.
  eexists. eexists. split; [reflexivity|]. split; [reflexivity|].
  split; [intros x y _ _; lia|]. split; [intros x y _ _; lia|]. split.
  - intros i Hi. change (nrow sepD) with 4 in Hi. split.
    + exists ((i + 2) mod 4). change (ncol sepD) with 4.
      do 4 (destruct i as [|i]; [split; [cbn; lia|]; split; [cbn; lia|vm_compute; reflexivity]|]). lia.
    + change (ncol sepD) with 4. intros x Hx _. left.
      do 4 (destruct i as [|i]; [do 4 (destruct x as [|x]; [vm_compute; reflexivity|]); lia|]). lia.
  - repeat split; vm_compute; reflexivity.
Qed.

Print Assumptions C184_same_order.
Print Assumptions C184_any_names.
Print Assumptions C184_test_set_depends_on_names.
