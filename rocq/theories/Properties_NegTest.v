(** C189: negative numbers in test_set_ind of score.

    numpy lets -1 stand for the last object, and score evaluates it; but the training
    set is what is left of 0, 1, ... after the numbers of test_set_ind, as they are given,
    have been removed.  So an object named by a negative number is not removed. *)
From Coq Require Import String.
From Coq Require Import ZArith List Arith Lia Bool Permutation Sorting.
From Verif Require Import Py Num Arr Sort S_Neighbors S_SNN S_KNN M_IO M_GK M_SNN M_KNN M_NegTest P_GK P_GK2 P_SNN P_KNN P_KNN2 P_KNN3 P_KNN4 Properties_KNN.
Import ListNotations.
Local Open Scope string_scope.
Local Open Scope nat_scope.

(** for non-negative numbers nothing changes *)
Theorem C189_nonnegative : forall argsort rp sh (D : arr2 f64) lab ks metric (t : list nat),
  score_z argsort rp sh D lab ks metric (map Z.of_nat t) = score argsort rp sh D lab ks metric (Some t) None.
Proof.
  intros. unfold score_z, score. cbv zeta.
  destruct (check_distance_matrix_shape (Dense [nrow D; ncol D])) as [?|e]; [|reflexivity].
  destruct (check_distance_matrix_shape_fits_labels (Dense [nrow D; ncol D]) (Dense [length lab])) as [?|e]; [|reflexivity].
  destruct (check_valid_metric_parameter metric) as [?|e]; [|reflexivity]. cbn [bind guard].
  assert (Ec : train_set (map Z.of_nat t) = filter (fun x => negb (existsb (Nat.eqb x) t)) (seq 0 (length t))).
  { unfold train_set. rewrite map_length. apply filter_ext. intros x. f_equal. clear.
    induction t as [|a t IH]; [reflexivity|]. cbn [map existsb]. rewrite IH. f_equal.
    destruct (Nat.eqb_spec x a) as [->|Hne]; [apply Z.eqb_refl|]. apply Z.eqb_neq. lia. }
  rewrite Ec, map_length.
  assert (Ep : mapM (np_index (nrow D)) (map Z.of_nat t) =
               if existsb (fun i => nrow D <=? i) t then Raise IndexError else Ok t).
  { generalize (nrow D) as n. clear. intros n. induction t as [|a t IH]; [reflexivity|]. cbn [map mapM existsb]. rewrite IH.
    unfold np_index. replace (Z.of_nat a <? - Z.of_nat n)%Z with false by (symmetry; apply Z.ltb_ge; lia).
    replace (Z.of_nat a <? 0)%Z with false by (symmetry; apply Z.ltb_ge; lia).
    cbn [orb]. destruct (Nat.leb_spec n a) as [H|H].
    - replace (Z.of_nat n <=? Z.of_nat a)%Z with true by (symmetry; apply Z.leb_le; lia). reflexivity.
    - replace (Z.of_nat n <=? Z.of_nat a)%Z with false by (symmetry; apply Z.leb_gt; lia). cbn [bind orb].
      rewrite Nat2Z.id. destruct (existsb (fun i => n <=? i) t); reflexivity. }
  rewrite Ep. destruct (existsb (fun i => nrow D <=? i) t); reflexivity.
Qed.

Lemma np_index_neg n x : x < n -> np_index n (- Z.of_nat (n - x)) = Ok x.
Proof.
  intros H. unfold np_index.
  replace (- Z.of_nat (n - x) <? - Z.of_nat n)%Z with false by (symmetry; apply Z.ltb_ge; lia).
  replace (Z.of_nat n <=? - Z.of_nat (n - x))%Z with false by (symmetry; apply Z.leb_gt; lia).
  replace (- Z.of_nat (n - x) <? 0)%Z with true by (symmetry; apply Z.ltb_lt; lia). cbn [orb]. f_equal. lia.
Qed.

(** what the checks leave *)
Lemma score_z_ok argsort rp sh (D : arr2 f64) lab ks metric t : nrow D = ncol D -> length lab = nrow D ->
  valid_metric metric = true -> (length t <= nrow D) ->
  score_z argsort rp sh D lab ks metric t =
  bind (mapM (np_index (nrow D)) t) (fun points =>
  Ok (m_out argsort rp sh metric false D lab ks (length t) points (map (class_index (unique_labels lab)) lab) (train_set t))).
Proof.
  intros Hsq HL Hv Ht. unfold score_z.
  assert (C1 : check_distance_matrix_shape (Dense [nrow D; ncol D]) = Ok tt)
    by (unfold check_distance_matrix_shape, check_is_nD_array, dim0, dim1; simpl; now rewrite Hsq, Nat.eqb_refl).
  assert (C2 : check_distance_matrix_shape_fits_labels (Dense [nrow D; ncol D]) (Dense [length lab]) = Ok tt)
    by (unfold check_distance_matrix_shape_fits_labels, check_is_nD_array, dim0, size_of; simpl;
        now rewrite HL, Nat.mul_1_r, Nat.eqb_refl).
  assert (C3 : check_valid_metric_parameter metric = Ok tt)
    by (unfold check_valid_metric_parameter, valid_metric in *;
        destruct (is_dist metric), (is_sim metric); simpl in *; auto; discriminate).
  rewrite C1, C2, C3. cbn [bind]. destruct (mapM (np_index (nrow D)) t) as [pts|e]; [|reflexivity]. cbn [bind].
  assert (E : existsb (fun x => ncol D <=? x) (train_set t) = false).
  { apply not_true_iff_false. intros H. apply existsb_exists in H. destruct H as (x & Hx & E).
    unfold train_set in Hx. apply filter_In in Hx. destruct Hx as (Hx & _). apply in_seq in Hx. apply Nat.leb_le in E. lia. }
  rewrite E. reflexivity.
Qed.

(** a number outside -n .. n-1 is refused *)
Theorem C189_out_of_range : forall argsort rp sh (D : arr2 f64) lab ks metric (t : list Z),
  nrow D = ncol D -> length lab = nrow D -> valid_metric metric = true -> length t <= nrow D ->
  ((exists out, score_z argsort rp sh D lab ks metric t = Ok out) <->
   forall i, In i t -> (- Z.of_nat (nrow D) <= i < Z.of_nat (nrow D))%Z) /\
  (forall e, score_z argsort rp sh D lab ks metric t = Raise e -> e = IndexError).
Proof.
  intros argsort rp sh D lab ks metric t Hsq HL Hv Ht. rewrite score_z_ok by assumption. set (n := nrow D).
  assert (H : (exists p, mapM (np_index n) t = Ok p /\ forall i, In i t -> (- Z.of_nat n <= i < Z.of_nat n)%Z) \/
              (mapM (np_index n) t = Raise IndexError /\ exists i, In i t /\ ~ (- Z.of_nat n <= i < Z.of_nat n)%Z)).
  { clear. induction t as [|a t IH]; [left; exists []; split; [reflexivity|contradiction]|]. cbn [mapM]. unfold np_index at 1 3.
    destruct ((a <? - Z.of_nat n)%Z || (Z.of_nat n <=? a)%Z) eqn:E.
    - right. split; [reflexivity|]. exists a. split; [now left|]. apply orb_true_iff in E. rewrite Z.ltb_lt, Z.leb_le in E. lia.
    - apply orb_false_iff in E. rewrite Z.ltb_ge, Z.leb_gt in E. cbn [bind]. destruct IH as [(p & -> & Hp)|(-> & i & Hi & Hn)].
      + left. eexists. split; [reflexivity|]. intros i [<-|Hi]; [lia|now apply Hp].
      + right. split; [reflexivity|]. exists i. split; [now right|exact Hn]. }
  destruct H as [(p & -> & Hp)|(-> & i & Hi & Hn)]; cbn [bind]; split.
  - split; [intros _; exact Hp|intros _; eexists; reflexivity].
  - discriminate.
  - split; [intros (o & E); discriminate|]. intros H. exfalso. now apply Hn, H.
  - congruence.
Qed.

(** which objects form the training set: those below the number of tested objects whose
    own, non-negative number is not listed.  An object listed as [x - n] stays. *)
Theorem C189_training_set : forall argsort, argsort_ok argsort ->
  forall rp, (forall i l, Permutation (rp i l) l) ->
  forall sh, (forall (i j : nat) l, Permutation (sh i j l) l) ->
  forall (D : arr2 f64) lab ks metric t out cl,
    nrow D = ncol D -> length lab = nrow D -> valid_metric metric = true -> length t <= nrow D ->
    distinct_sorted lab cl -> score_z argsort rp sh D lab ks metric t = Ok out ->
    length out = length ks /\ exists pred (idx : nat -> list nat),
      (forall j s, nth_error out j = Some s -> forall x, x < nrow D ->
         k_corr s x = true <-> (In (Z.of_nat x) t \/ In (Z.of_nat x - Z.of_nat (nrow D))%Z t) /\ pred j x = nth x lab 0%Z) /\
      forall x, x < nrow D -> (In (Z.of_nat x) t \/ In (Z.of_nat x - Z.of_nat (nrow D))%Z t) ->
        ranking (fun a b => nearer metric (rank_value metric D x a) (rank_value metric D x b))
          (fun a => (a < length t /\ ~ In (Z.of_nat a) t) /\ nisnan (rank_value metric D x a) = false) (idx x) /\
        forall j, j < length ks ->
          (forall j', j' <= j -> filter (fun a => nisfin (rank_value metric D x a)) (prefix (idx x) (nth j' ks 0%Z)) <> []) ->
          elected (map (fun a => nth a lab 0%Z)
             (filter (fun a => nisfin (rank_value metric D x a)) (prefix (idx x) (nth j ks 0%Z)))) (pred j x).
Proof.
  intros argsort AS rp RP sh SH D lab ks metric t out cl Hsq HL Hv Ht Hcl Hout.
  rewrite score_z_ok in Hout by assumption. set (n := nrow D) in *.
  destruct (mapM (np_index n) t) as [points|e] eqn:Ep; [|discriminate]. cbn [bind] in Hout.
  assert (Hp : forall x, In x points <-> x < n /\ (In (Z.of_nat x) t \/ In (Z.of_nat x - Z.of_nat n)%Z t)).
  { clear - Ep. revert points Ep. induction t as [|a t IH]; intros points Ep; cbn [mapM] in Ep.
    - injection Ep as <-. simpl. tauto.
    - destruct (np_index n a) as [p|e] eqn:Ea; [|discriminate]. cbn [bind] in Ep.
      destruct (mapM (np_index n) t) as [ps|e] eqn:Et; [|discriminate]. injection Ep as <-.
      intros x. cbn [In]. rewrite (IH ps eq_refl). unfold np_index in Ea.
      destruct ((a <? - Z.of_nat n)%Z || (Z.of_nat n <=? a)%Z) eqn:E; [discriminate|].
      apply orb_false_iff in E. rewrite Z.ltb_ge, Z.leb_gt in E. injection Ea as <-.
      destruct (Z.ltb_spec a 0) as [Hn|Hn].
      + split; [intros [<-|(A & [B|B])]; (split; [lia|]); try tauto; right; left; lia|].
        intros (A & [[B|B]|[B|B]]); first [right; tauto|left; lia|exfalso; lia].
      + split; [intros [<-|(A & [B|B])]; (split; [lia|]); try tauto; left; left; lia|].
        intros (A & [[B|B]|[B|B]]); first [right; tauto|left; lia|exfalso; lia]. }
  assert (Hc : forall x, In x (train_set t) <-> x < length t /\ ~ In (Z.of_nat x) t).
  { intros x. unfold train_set. rewrite filter_In, in_seq, negb_true_iff. split; intros (A & B); split; try lia.
    - intros H. apply not_true_iff_false in B. apply B. apply existsb_exists. exists (Z.of_nat x). split; [exact H|apply Z.eqb_refl].
    - apply not_true_iff_false. intros H. apply existsb_exists in H. destruct H as (z & Hz & E). apply Z.eqb_eq in E. subst. tauto. }
  set (vc := map (class_index (unique_labels lab)) lab) in *.
  assert (Hpt : forall i, In i points -> i < length lab) by (intros i Hi; apply Hp in Hi; lia).
  assert (Hnd : NoDup (train_set t)) by (apply NoDup_filter, seq_NoDup).
  assert (Hvc : forall x, In x (train_set t) -> nth x vc 0 = class_index (unique_labels lab) (nth x lab 0%Z) /\ In (nth x lab 0%Z) (unique_labels lab)).
  { intros x Hx. apply Hc in Hx. split; [apply nth_classes; lia|]. apply unique_In, nth_In. lia. }
  assert (Hrow : forall i x, In i points -> In x (train_set t) -> nth x (knn_row metric false D i) nnan = rank_value metric D i x).
  { intros i x _ Hx. apply row_loo. apply Hc in Hx. lia. }
  destruct (m_describes f64_cmp argsort AS rp RP sh SH metric false D lab ks (length t) points vc (train_set t)
              (fun x => nth x lab 0%Z) Hpt Hnd Hvc) as (Lo & Hd).
  assert (Eo : out = m_out argsort rp sh metric false D lab ks (length t) points vc (train_set t)) by congruence.
  rewrite <- Eo in Lo, Hd. split; [exact Lo|].
  exists (m_pred argsort rp sh metric false D lab ks vc (train_set t)), (m_idx argsort rp metric false D (train_set t)).
  split.
  - intros j s Hs x Hx. destruct (Hd j s Hs) as (De & _). split.
    + intros E. destruct (in_dec Nat.eq_dec x points) as [I|I].
      * rewrite (de_corr _ _ _ _ _ _ De x I) in E. apply Z.eqb_eq in E. split; [now apply Hp|congruence].
      * rewrite (de_other _ _ _ _ _ _ De x I) in E. discriminate.
    + intros (A & B). rewrite (de_corr _ _ _ _ _ _ De x) by (apply Hp; tauto). apply Z.eqb_eq. congruence.
  - intros x Hx A. assert (I : In x points) by (apply Hp; tauto). split.
    + destruct (m_rank f64_cmp argsort AS rp RP metric false D points (train_set t) (fun i => rank_value metric D i) Hnd Hrow x I) as [R1 R2 R3].
      split; [exact R1| |exact R3]. intros a. rewrite R2, Hc. tauto.
    + intros j Hj Hf. apply (m_elected f64_cmp argsort AS rp RP sh SH metric false D lab ks points vc (train_set t)
        (fun a => nth a lab 0%Z) (fun i => rank_value metric D i)); auto.
Qed.

Lemma filter_all {A} (p : A -> bool) l : (forall x, In x l -> p x = true) -> filter p l = l.
Proof.
  induction l as [|a l IH]; intros H; [reflexivity|]. cbn [filter]. rewrite (H a) by now left. f_equal. apply IH. intros x Hx. apply H. now right.
Qed.

(** naming all objects by negative numbers gives leave-one-out classification ... *)
Theorem C189_all_negative : forall argsort, argsort_ok argsort ->
  forall rp sh (D : arr2 f64) lab ks metric t,
    nrow D = ncol D -> length lab = nrow D -> valid_metric metric = true ->
    Permutation t (map (fun x => (Z.of_nat x - Z.of_nat (nrow D))%Z) (seq 0 (nrow D))) ->
    exists out out', score_z argsort rp sh D lab ks metric t = Ok out /\
      score argsort rp sh D lab ks metric None None = Ok out' /\ length out = length ks /\ length out' = length ks /\
      forall j s s', nth_error out j = Some s -> nth_error out' j = Some s' ->
        k_acc s = k_acc s' /\ (forall x, k_corr s x = k_corr s' x) /\ (forall a b, k_cmat s a b = k_cmat s' a b).
Proof.
  intros argsort AS rp sh D lab ks metric t Hsq HL Hv Hp. set (n := nrow D) in *.
  assert (Lt : length t = n) by (rewrite (Permutation_length Hp), map_length, seq_length; reflexivity).
  rewrite score_z_ok by (auto; fold n; lia). rewrite score_loo by assumption. fold n. rewrite Lt.
  assert (Ec : train_set t = seq 0 n).
  { unfold train_set. rewrite Lt. apply filter_all. intros x Hx. apply in_seq in Hx. apply negb_true_iff, not_true_iff_false.
    intros H. apply existsb_exists in H. destruct H as (z & Hz & E). apply Z.eqb_eq in E. subst z.
    apply (Permutation_in _ Hp), in_map_iff in Hz. destruct Hz as (y & Ey & Hy). apply in_seq in Hy. lia. }
  rewrite Ec.
  assert (Em : exists p, mapM (np_index n) t = Ok p /\ Permutation p (seq 0 n)).
  { assert (G : forall l, (forall x, In x l -> x < n) -> forall t, Permutation t (map (fun x => (Z.of_nat x - Z.of_nat n)%Z) l) ->
              exists p, mapM (np_index n) t = Ok p /\ Permutation p l).
    { clear. intros l Hl t Hp. assert (E : mapM (np_index n) t = Ok (map (fun i => Z.to_nat (Z.of_nat n + i)) t)).
      { apply mapM_ok_map. intros i Hi. apply (Permutation_in _ Hp), in_map_iff in Hi. destruct Hi as (x & <- & Hx).
        specialize (Hl x Hx). replace (Z.of_nat x - Z.of_nat n)%Z with (- Z.of_nat (n - x))%Z by lia. rewrite np_index_neg by exact Hl. f_equal. lia. }
      exists (map (fun i => Z.to_nat (Z.of_nat n + i)) t). split; [exact E|].
      rewrite Hp, map_map. rewrite <- (map_id l) at 2. 
      rewrite (map_ext_in _ (fun x => x)); [reflexivity|]. intros x _. lia. }
    apply G; [|exact Hp]. intros x Hx. apply in_seq in Hx. lia. }
  destruct Em as (p & -> & Pp). cbn [bind]. do 2 eexists. split; [reflexivity|]. split; [reflexivity|].
  set (vc := map (class_index (unique_labels lab)) lab).
  set (pr := m_point argsort rp sh metric false D lab ks vc (seq 0 n)).
  assert (Lp : forall i, length (pr i) = length ks) by (intros i; apply point_length).
  destruct (fold_zip (V:=f64) n (fun i => nth i vc 0) pr (length ks) p Lp (map (fun _ => kst0) ks) ltac:(now rewrite map_length)) as (L1 & E1).
  destruct (fold_zip (V:=f64) n (fun i => nth i vc 0) pr (length ks) (seq 0 n) Lp (map (fun _ => kst0) ks) ltac:(now rewrite map_length)) as (L2 & E2).
  split; [exact L1|]. split; [exact L2|]. intros j s s' Hs Hs'.
  assert (Hj : j < length ks).
  { rewrite <- L1. apply nth_error_Some. intros Hno. change (nth_error (fold_left (fun st i => zip_upd n i (nth i vc 0) (pr i) st) p (map (fun _ => kst0) ks)) j = Some s) in Hs. congruence. }
  specialize (E1 j Hj). specialize (E2 j Hj).
  assert (E0 : nth j (map (fun _ => @kst0 f64 _) ks) kst0 = kst0).
  { clear. revert j. induction ks; destruct j; simpl; auto. }
  rewrite E0 in E1, E2.
  assert (S1 : nth j (fold_left (fun st i => zip_upd n i (nth i vc 0) (pr i) st) p (map (fun _ => kst0) ks)) kst0 = s)
    by (exact (nth_error_nth _ _ _ Hs)).
  assert (S2 : nth j (fold_left (fun st i => zip_upd n i (nth i vc 0) (pr i) st) (seq 0 n) (map (fun _ => kst0) ks)) kst0 = s')
    by (exact (nth_error_nth _ _ _ Hs')).
  rewrite S1 in E1. rewrite S2 in E2.
  destruct (fold_upd (V:=f64) n (fun i => nth i vc 0) (fun i => nth j (pr i) 0) p kst0 0 eq_refl) as (A & B & C).
  destruct (fold_upd (V:=f64) n (fun i => nth i vc 0) (fun i => nth j (pr i) 0) (seq 0 n) kst0 0 eq_refl) as (A' & B' & C').
  rewrite <- E1 in A, B, C. rewrite <- E2 in A', B', C'. split; [|split].
  - rewrite A, A'. now rewrite (cnt_perm _ _ _ Pp).
  - intros x. rewrite B, B'. f_equal. apply eq_true_iff_eq. rewrite !existsb_exists.
    split; intros (i & Hi & E); exists i; (split; [|exact E]); [apply (Permutation_in _ Pp Hi)|apply (Permutation_in _ (Permutation_sym Pp) Hi)].
  - intros a b. rewrite C, C'. now rewrite (cnt_perm _ _ _ Pp).
Qed.

(** ... while naming them by 0, ..., n-1 makes every prediction the largest label *)
Theorem C189_all_nonnegative : forall argsort, argsort_ok argsort ->
  forall rp, (forall i l, Permutation (rp i l) l) ->
  forall sh, (forall (i j : nat) l, Permutation (sh i j l) l) ->
  forall (D : arr2 f64) lab ks metric cl,
    nrow D = ncol D -> length lab = nrow D -> valid_metric metric = true -> distinct_sorted lab cl ->
    exists out, score_z argsort rp sh D lab ks metric (map Z.of_nat (seq 0 (nrow D))) = Ok out /\ length out = length ks /\
      forall s i, In s out -> i < nrow D -> k_corr s i = (nth i lab 0 =? last cl 0)%Z.
Proof.
  intros. rewrite C189_nonnegative. now apply C24_leading_test_set.
Qed.

(** a case: the four objects of [sepD] *)
Example C189_case : exists s s',
  score_z ref_argsort (fun _ l => l) (fun _ _ l => l) sepD [1; 2; 1; 2]%Z [1%Z] "distance" [-1; -2; -3; -4]%Z = Ok [s] /\
  score_z ref_argsort (fun _ l => l) (fun _ _ l => l) sepD [1; 2; 1; 2]%Z [1%Z] "distance" [0; 1; 2; 3]%Z = Ok [s'] /\
  map (k_corr s) [0; 1; 2; 3] = [true; true; true; true] /\ map (k_corr s') [0; 1; 2; 3] = [false; true; false; true].
Proof. do 2 eexists. split; [reflexivity|]. split; [reflexivity|]. split; vm_compute; reflexivity. Qed.
Example C189_case_names : Permutation [-1; -2; -3; -4]%Z (map (fun x => (Z.of_nat x - Z.of_nat (nrow sepD))%Z) (seq 0 (nrow sepD))).
Proof. change (Permutation [-1; -2; -3; -4]%Z (rev [-1; -2; -3; -4]%Z)). apply Permutation_rev. Qed.

Print Assumptions C189_nonnegative.
Print Assumptions C189_out_of_range.
Print Assumptions C189_training_set.
Print Assumptions C189_all_negative.
Print Assumptions C189_all_nonnegative.
