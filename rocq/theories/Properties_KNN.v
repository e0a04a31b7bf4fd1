(** Properties C20-C26, C50: knn_classification.py (dense score, predict, F measures). *)
From Coq Require Import String.
From Coq Require Import ZArith Reals Lra List Arith Lia Bool Permutation Sorting.
From Flocq Require Import BinarySingleNaN.
From Verif Require Import Py Num Arr Sort S_Neighbors S_SNN S_KNN M_IO M_GK M_SNN M_KNN.
From Verif Require Import P_F64 P_GK2 P_SNN P_KNN P_KNN2 P_KNN3 P_KNN4 P_F1.
Import ListNotations.
Local Open Scope nat_scope.

(** In all statements: [argsort] is any function that meets numpy's contract,
    [rp i l] the permutation drawn for point i, [sh i j l] the one drawn when
    none of the j-th k values is finite. *)

(** ** C20: accuracy, flags and confusion matrix agree, in all three modes *)
Theorem C20_leave_one_out :
  forall argsort, argsort_ok argsort ->
  forall rp, (forall i l, Permutation (rp i l) l) ->
  forall sh, (forall (i j : nat) l, Permutation (sh i j l) l) ->
  forall (D : arr2 f64) lab ks metric cl,
    nrow D = ncol D -> length lab = nrow D -> valid_metric metric = true -> distinct_sorted lab cl ->
    exists out, score argsort rp sh D lab ks metric None None = Ok out /\ length out = length ks /\
      forall s, In s out ->
        consistent (seq 0 (nrow D)) (fun i => nth i lab 0%Z) cl (k_acc s) (k_corr s) (k_cmat s).
Proof.
  intros argsort AS rp RP sh SH D lab ks metric cl Hsq HL Hv Hcl. rewrite (distinct_unique _ _ Hcl).
  destruct (loo_full f64_cmp argsort AS rp RP sh SH D lab ks metric Hsq HL Hv) as (out & pred & E & L & Hd & _).
  exists out. split; [exact E|]. split; [exact L|]. intros s Hs.
  destruct (In_nth_error _ _ Hs) as (j & Hj). now apply (Hd j s).
Qed.

Theorem C20_sample :
  forall argsort, argsort_ok argsort ->
  forall rp, (forall i l, Permutation (rp i l) l) ->
  forall sh, (forall (i j : nat) l, Permutation (sh i j l) l) ->
  forall (D : arr2 f64) lab ks metric sample cl,
    length sample = ncol D -> ncol D <= nrow D -> length lab = nrow D -> valid_metric metric = true ->
    (forall x, In x sample -> x < nrow D) -> distinct_sorted lab cl ->
    exists out, score argsort rp sh D lab ks metric None (Some sample) = Ok out /\ length out = length ks /\
      forall s, In s out ->
        consistent (seq 0 (nrow D)) (fun i => nth i lab 0%Z) cl (k_acc s) (k_corr s) (k_cmat s).
Proof.
  intros argsort AS rp RP sh SH D lab ks metric smp cl Hs0 Hle HL Hv Hr Hcl. rewrite (distinct_unique _ _ Hcl).
  destruct (sample_full f64_cmp argsort AS rp RP sh SH D lab ks metric smp Hs0 Hle HL Hv Hr) as (out & pred & E & L & Hd & _).
  exists out. split; [exact E|]. split; [exact L|]. intros s Hs.
  destruct (In_nth_error _ _ Hs) as (j & Hj). now apply (Hd j s).
Qed.

Theorem C20_test_set :
  forall argsort, argsort_ok argsort ->
  forall rp, (forall i l, Permutation (rp i l) l) ->
  forall sh, (forall (i j : nat) l, Permutation (sh i j l) l) ->
  forall (D : arr2 f64) lab ks metric t cl,
    nrow D = ncol D -> length lab = nrow D -> valid_metric metric = true ->
    NoDup t -> (forall x, In x t -> x < nrow D) -> distinct_sorted lab cl ->
    exists out, score argsort rp sh D lab ks metric (Some t) None = Ok out /\ length out = length ks /\
      forall s, In s out ->
        consistent t (fun i => nth i lab 0%Z) cl (k_acc s) (k_corr s) (k_cmat s).
Proof.
  intros argsort AS rp RP sh SH D lab ks metric t cl Hsq HL Hv Hn Hr Hcl. rewrite (distinct_unique _ _ Hcl).
  destruct (test_full f64_cmp argsort AS rp RP sh SH D lab ks metric t Hsq HL Hv Hn Hr) as (out & pred & E & L & Hd & _).
  exists out. split; [exact E|]. split; [exact L|]. intros s Hs.
  destruct (In_nth_error _ _ Hs) as (j & Hj). now apply (Hd j s).
Qed.

(** ** C21: exact accuracy is correct/n; float64 accuracy of 9 correct points exceeds 1 *)
Lemma iter_exact n c : 0 < n ->
  Nat.iter c (fun a => nadd (V:=xr) a (ndiv n1 (nofnat n))) n0 = XFin (INR c / INR n).
Proof.
  intros Hn. assert (Pn : (0 < INR n)%R) by (apply lt_0_INR; lia).
  induction c as [|c IH].
  - change (XFin 0 = XFin (INR 0 / INR n)). f_equal. simpl. unfold Rdiv. now rewrite Rmult_0_l.
  - cbn [Nat.iter nat_rect]. change (nat_rect _ _ _ c) with
      (Nat.iter c (fun a => nadd (V:=xr) a (ndiv n1 (nofnat n))) n0). rewrite IH.
    unfold nofnat, n1. cbn [nadd ndiv nofZ Num_xr]. rewrite <- INR_IZR_INZ.
    rewrite xdiv_fin by lra. simpl xadd. f_equal. rewrite S_INR. field. lra.
Qed.

Theorem C21_exact_accuracy :
  forall argsort, argsort_ok argsort ->
  forall rp, (forall i l, Permutation (rp i l) l) ->
  forall sh, (forall (i j : nat) l, Permutation (sh i j l) l) ->
  forall (D : arr2 xr) lab ks metric,
    nrow D = ncol D -> 0 < nrow D -> length lab = nrow D -> valid_metric metric = true ->
    exists out, score argsort rp sh D lab ks metric None None = Ok out /\ length out = length ks /\
      forall s, In s out ->
        k_acc s = XFin (INR (length (filter (k_corr s) (seq 0 (nrow D)))) / INR (nrow D)) /\
        (INR (length (filter (k_corr s) (seq 0 (nrow D)))) / INR (nrow D) <= 1)%R.
Proof.
  intros argsort AS rp RP sh SH D lab ks metric Hsq Hn HL Hv.
  destruct (loo_full xr_cmp argsort AS rp RP sh SH D lab ks metric Hsq HL Hv) as (out & pred & E & L & Hd & _).
  exists out. split; [exact E|]. split; [exact L|]. intros s Hs.
  destruct (In_nth_error _ _ Hs) as (j & Hj). destruct (Hd j s Hj) as (_ & C).
  rewrite (co_acc _ _ _ _ _ _ C), seq_length. split; [now apply iter_exact|].
  assert (Pn : (0 < INR (nrow D))%R) by (apply lt_0_INR; lia).
  assert (Hle : (INR (length (filter (k_corr s) (seq 0 (nrow D)))) <= INR (nrow D))%R).
  { apply le_INR. pose proof (count_if_le (k_corr s) (nrow D)). unfold count_if in *. assumption. }
  apply (Rmult_le_reg_r (INR (nrow D))); [assumption|]. unfold Rdiv.
  rewrite Rmult_assoc, Rinv_l, Rmult_1_r, Rmult_1_l by lra. assumption.
Qed.

Theorem C21_float_accuracy_above_one :
  forall argsort, argsort_ok argsort ->
  forall rp, (forall i l, Permutation (rp i l) l) ->
  forall sh, (forall (i j : nat) l, Permutation (sh i j l) l) ->
  forall (D : arr2 f64) (c : Z) ks metric,
    nrow D = 9 -> ncol D = 9 -> valid_metric metric = true ->
    exists out, score argsort rp sh D (repeat c 9) ks metric None None = Ok out /\ length out = length ks /\
      forall s, In s out ->
        (forall i, i < 9 -> k_corr s i = true) /\ nlt n1 (k_acc s) = true.
Proof.
  intros argsort AS rp RP sh SH D c ks metric HR HC Hv.
  destruct (loo_full f64_cmp argsort AS rp RP sh SH D (repeat c 9) ks metric) as (out & pred & E & L & Hd & _);
    [congruence|now rewrite HR|exact Hv|].
  exists out. split; [exact E|]. split; [exact L|]. intros s Hs.
  destruct (In_nth_error _ _ Hs) as (j & Hj). destruct (Hd j s Hj) as (De & C). rewrite HR in *.
  assert (Hc : forall i, i < 9 -> k_corr s i = true).
  { intros i Hi. assert (Hin : In i (seq 0 9)) by (apply in_seq; lia).
    rewrite (de_corr _ _ _ _ _ _ De i Hin).
    pose proof (de_pred _ _ _ _ _ _ De i Hin) as Hp. apply unique_In, repeat_spec in Hp. rewrite Hp.
    apply Z.eqb_eq. apply (repeat_spec 9 c). apply nth_In. rewrite repeat_length. assumption. }
  split; [exact Hc|]. rewrite (co_acc _ _ _ _ _ _ C).
  replace (filter (k_corr s) (seq 0 9)) with (seq 0 9).
  - rewrite seq_length. vm_compute. reflexivity.
  - simpl. now rewrite !Hc by lia.
Qed.

(** ** C22: leave-one-out does not look at the label of the classified point *)
Theorem C22_score_no_leak :
  forall argsort, argsort_ok argsort ->
  forall rp, (forall i l, Permutation (rp i l) l) ->
  forall sh, (forall (i j : nat) l, Permutation (sh i j l) l) ->
  forall (D : arr2 f64) lab lab' ks metric i,
    nrow D = ncol D -> length lab = nrow D -> length lab' = nrow D -> valid_metric metric = true ->
    i < nrow D -> (forall x, x <> i -> nth x lab' 0%Z = nth x lab 0%Z) ->
    (forall k, In k ks -> (0 < k)%Z) -> has_finite_neighbor metric D i ->
    exists out out' (p : nat -> Z),
      score argsort rp sh D lab ks metric None None = Ok out /\
      score argsort rp sh D lab' ks metric None None = Ok out' /\
      length out = length ks /\ length out' = length ks /\
      (forall j, j < length ks -> exists x, x < nrow D /\ x <> i /\ p j = nth x lab 0%Z) /\
      forall j s s', nth_error out j = Some s -> nth_error out' j = Some s' ->
        k_corr s i = (nth i lab 0 =? p j)%Z /\ k_corr s' i = (nth i lab' 0 =? p j)%Z.
Proof.
  intros argsort AS rp RP sh SH D lab lab' ks metric i. intros.
  now apply (loo_same_prediction f64_cmp argsort AS rp RP sh SH).
Qed.

Theorem C22_predict_no_leak :
  forall argsort, argsort_ok argsort ->
  forall rp, (forall i l, Permutation (rp i l) l) ->
  forall sh, (forall (i j : nat) l, Permutation (sh i j l) l) ->
  forall (D : arr2 f64) target target' ks metric c i,
    nrow D = ncol D -> length target = nrow D -> length target' = nrow D -> valid_metric metric = true ->
    (forall x, x < nrow D -> length (nth x target []) = c /\ length (nth x target' []) = c) ->
    i < nrow D -> (forall x, x <> i -> nth x target' [] = nth x target []) ->
    (forall z, In z (concat target) <-> In z (concat target')) ->
    (forall k, In k ks -> (0 < k)%Z) -> has_finite_neighbor metric D i ->
    exists y y', predict argsort rp sh D target ks metric None None = Ok y /\
      predict argsort rp sh D target' ks metric None None = Ok y' /\ nth i y' [] = nth i y [].
Proof.
  intros argsort AS rp RP sh SH D target target' ks metric c i Hsq HT HT' Hv Hc Hi Heq Hcl Hk Hf.
  destruct (predict_elected f64_cmp argsort AS rp RP sh SH D target ks metric c Hsq ltac:(lia) Hv
    ltac:(intros x Hx; rewrite HT in Hx; now apply Hc) Hk) as (y & Ey & Ly & Hy).
  destruct (predict_elected f64_cmp argsort AS rp RP sh SH D target' ks metric c Hsq ltac:(lia) Hv
    ltac:(intros x Hx; rewrite HT' in Hx; now apply Hc) Hk) as (y' & Ey' & Ly' & Hy').
  exists y, y'. split; [exact Ey|]. split; [exact Ey'|].
  assert (Ecl : unique_labels (concat target') = unique_labels (concat target)).
  { apply distinct_unique. split; [apply unique_sorted|]. intros z. rewrite unique_In. symmetry. apply Hcl. }
  rewrite Ecl in Hy'. set (cl := unique_labels (concat target)) in *.
  destruct (Hy i Hi) as (Li & Hj). destruct (Hy' i Hi) as (Li' & Hj').
  apply nth_ext with (d := []) (d' := []); [congruence|]. intros j Hjl. rewrite Li' in Hjl.
  destruct (Hj j Hjl) as (Lj & Hl). destruct (Hj' j Hjl) as (Lj' & Hl').
  apply nth_ext with (d := 0) (d' := 0); [congruence|]. intros l Hll. rewrite Lj' in Hll.
  destruct (Hl l Hll) as (B & El). destruct (Hl' l Hll) as (B' & El').
  specialize (El Hf). specialize (El' Hf).
  apply (proj1 (NoDup_nth cl 0%Z) (unique_NoDup _)); auto.
  eapply elected_unique; [exact El'|].
  rewrite (map_ext_in _ (fun x => nth l (nth x target []) 0%Z)); [exact El|].
  intros x Hx. apply filter_In in Hx. destruct Hx as (_ & Hfx). f_equal. apply Heq.
  intros ->. unfold rank_value in Hfx. rewrite Nat.eqb_refl, (worst_nfin f64_cmp) in Hfx. discriminate.
Qed.

(** ** C23: who votes and who wins *)
Lemma prefix_ks (l : list nat) (ks : list nat) j :
  prefix l (nth j (map Z.of_nat ks) 0%Z) = firstn (nth j ks 0) l.
Proof. change 0%Z with (Z.of_nat 0). rewrite map_nth. apply prefix_nat. Qed.

Theorem C23_majority :
  forall argsort, argsort_ok argsort ->
  forall rp, (forall i l, Permutation (rp i l) l) ->
  forall sh, (forall (i j : nat) l, Permutation (sh i j l) l) ->
  forall (D : arr2 f64) lab ks metric cl,
    nrow D = ncol D -> length lab = nrow D -> valid_metric metric = true -> distinct_sorted lab cl ->
    exists out (pred : nat -> nat -> Z) (idx : nat -> list nat),
      score argsort rp sh D lab (map Z.of_nat ks) metric None None = Ok out /\ length out = length ks /\
      (forall j s, nth_error out j = Some s ->
         describes (seq 0 (nrow D)) (fun i => nth i lab 0%Z) cl (pred j) (k_corr s) (k_cmat s)) /\
      forall i, i < nrow D ->
        ranking (fun x y => nearer metric (rank_value metric D i x) (rank_value metric D i y))
          (fun x => x < nrow D /\ nisnan (rank_value metric D i x) = false) (idx i) /\
        (forall j, j < length ks ->
           let voters k := filter (fun x => nisfin (rank_value metric D i x)) (firstn k (idx i)) in
           (forall j', j' <= j -> voters (nth j' ks 0) <> []) ->
           elected (map (fun x => nth x lab 0%Z) (voters (nth j ks 0))) (pred j i)) /\
        (has_finite_neighbor metric D i -> (forall k, In k ks -> 0 < k) ->
         forall j, j < length ks ->
           filter (fun x => nisfin (rank_value metric D i x)) (firstn (nth j ks 0) (idx i)) <> []).
Proof.
  intros argsort AS rp RP sh SH D lab ks metric cl Hsq HL Hv Hcl. rewrite (distinct_unique _ _ Hcl).
  destruct (loo_full f64_cmp argsort AS rp RP sh SH D lab (map Z.of_nat ks) metric Hsq HL Hv)
    as (out & pred & E & L & Hd & Hr). rewrite map_length in L.
  exists out, pred, (m_idx argsort rp metric false D (seq 0 (nrow D))).
  split; [exact E|]. split; [exact L|]. split; [intros j s Hs; now apply (Hd j s)|].
  intros i Hi. destruct (Hr i Hi) as (Rk & El & Ne). rewrite map_length in El, Ne. split; [exact Rk|]. split.
  - intros j Hj voters H. specialize (El j Hj). rewrite prefix_ks in El. apply El.
    intros j' Hj'. rewrite prefix_ks. now apply H.
  - intros Hf Hk j Hj. specialize (Ne Hf). rewrite <- prefix_ks. apply Ne; [|assumption].
    intros k Hin. apply in_map_iff in Hin. destruct Hin as (k' & <- & Hk'). specialize (Hk k' Hk'). lia.
Qed.

(** the same when only a sample of the objects has columns: column x stands
    for object sample_x, an object never votes for itself *)
Theorem C23_majority_sample :
  forall argsort, argsort_ok argsort ->
  forall rp, (forall i l, Permutation (rp i l) l) ->
  forall sh, (forall (i j : nat) l, Permutation (sh i j l) l) ->
  forall (D : arr2 f64) lab ks metric sample cl,
    length sample = ncol D -> ncol D <= nrow D -> length lab = nrow D -> valid_metric metric = true ->
    (forall x, In x sample -> x < nrow D) -> distinct_sorted lab cl ->
    exists out (pred : nat -> nat -> Z) (idx : nat -> list nat),
      score argsort rp sh D lab (map Z.of_nat ks) metric None (Some sample) = Ok out /\ length out = length ks /\
      (forall j s, nth_error out j = Some s ->
         describes (seq 0 (nrow D)) (fun i => nth i lab 0%Z) cl (pred j) (k_corr s) (k_cmat s)) /\
      forall i, i < nrow D ->
        ranking (fun x y => nearer metric (rank_value_s metric D sample i x) (rank_value_s metric D sample i y))
          (fun x => x < length sample /\ nisnan (rank_value_s metric D sample i x) = false) (idx i) /\
        (forall j, j < length ks ->
           let voters k := filter (fun x => nisfin (rank_value_s metric D sample i x)) (firstn k (idx i)) in
           (forall j', j' <= j -> voters (nth j' ks 0) <> []) ->
           elected (map (fun x => nth (nth x sample 0) lab 0%Z) (voters (nth j ks 0))) (pred j i)).
Proof.
  intros argsort AS rp RP sh SH D lab ks metric smp cl Hs0 Hle HL Hv Hr0 Hcl. rewrite (distinct_unique _ _ Hcl).
  destruct (sample_full f64_cmp argsort AS rp RP sh SH D lab (map Z.of_nat ks) metric smp Hs0 Hle HL Hv Hr0)
    as (out & pred & E & L & Hd & Hr). rewrite map_length in L.
  exists out, pred, (m_idx argsort rp metric true (set_cells smp (knn_self metric) D) (seq 0 (length smp))).
  split; [exact E|]. split; [exact L|]. split; [intros j s Hs; now apply (Hd j s)|].
  intros i Hi. destruct (Hr i Hi) as (Rk & El). rewrite map_length in El. split; [exact Rk|].
  intros j Hj voters H. specialize (El j Hj). rewrite prefix_ks in El. apply El.
  intros j' Hj'. rewrite prefix_ks. now apply H.
Qed.

(** DEFECT: a tie between two classes can be won by a third one *)
Theorem C23_tie_outsider : forall a b c p : Z, a <> b -> a <> c -> b <> c ->
  elected [a; b; b; c; c] p ->
  p = a /\ zvotes [a; b; b; c; c] a = 1 /\ zvotes [a; b; b; c; c] b = 2 /\ zvotes [a; b; b; c; c] c = 2.
Proof.
  intros a b c p Hab Hac Hbc H.
  assert (Va : zvotes [a; b; b; c; c] a = 1 /\ zvotes [a; b; b; c; c] b = 2 /\ zvotes [a; b; b; c; c] c = 2).
  { unfold zvotes. simpl. repeat (destruct (Z.eq_dec _ _); try congruence). auto. }
  split; [|exact Va]. destruct H as [P|(_ & E)].
  - exfalso. destruct (Z.eq_dec p b) as [->|Hb].
    + specialize (P c ltac:(congruence)). lia.
    + specialize (P b ltac:(congruence)). destruct (Z.eq_dec p c) as [->|Hc]; [lia|].
      destruct (Z.eq_dec p a) as [->|Ha]; [lia|].
      assert (zvotes [a; b; b; c; c] p = 0); [|lia].
      unfold zvotes. simpl. repeat (destruct (Z.eq_dec _ _); try congruence).
  - simpl in E. congruence.
Qed.

Definition z64 (z : Z) : f64 := nofZ z.
Definition tieD : arr2 f64 := of_rows n0 (map (map z64)
  [[0; 1; 2; 3; 4; 5]; [1; 0; 9; 9; 9; 9]; [2; 9; 0; 9; 9; 9];
   [3; 9; 9; 0; 9; 9]; [4; 9; 9; 9; 0; 9]; [5; 9; 9; 9; 9; 0]]%Z).

(** point 0 (label 7) has neighbours 5,7,7,8,8 and is classified as 5 *)
Theorem C23_tie_witness :
  exists s y,
    score ref_argsort (fun _ l => l) (fun _ _ l => l) tieD [7; 5; 7; 7; 8; 8]%Z [5%Z] "distance" None None = Ok [s] /\
    k_corr s 0 = false /\
    predict ref_argsort (fun _ l => l) (fun _ _ l => l) tieD [[7]; [5]; [7]; [7]; [8]; [8]]%Z [5%Z] "distance" None None = Ok y /\
    nth 0 y [] = [[0]] /\ unique_labels [7; 5; 7; 7; 8; 8]%Z = [5; 7; 8]%Z.
Proof.
  eexists. eexists. split; [reflexivity|]. split; [vm_compute; reflexivity|].
  split; [vm_compute; reflexivity|]. split; reflexivity.
Qed.

(** ** C24: the test-set mode *)
Lemma nth_last (l : list Z) : nth (length l - 1) l 0%Z = last l 0%Z.
Proof.
  induction l as [|x l IH]; [reflexivity|]. destruct l as [|y l]; [reflexivity|].
  change (last (x :: y :: l) 0%Z) with (last (y :: l) 0%Z). rewrite <- IH. simpl. now rewrite Nat.sub_0_r.
Qed.

Theorem C24_wrong_training_set :
  forall argsort, argsort_ok argsort ->
  forall rp, (forall i l, Permutation (rp i l) l) ->
  forall sh, (forall (i j : nat) l, Permutation (sh i j l) l) ->
  forall (D : arr2 f64) lab ks metric t cl,
    nrow D = ncol D -> length lab = nrow D -> valid_metric metric = true ->
    NoDup t -> (forall x, In x t -> x < nrow D) -> distinct_sorted lab cl ->
    exists out pred, score argsort rp sh D lab ks metric (Some t) None = Ok out /\ length out = length ks /\
      (forall j s, nth_error out j = Some s ->
         describes t (fun i => nth i lab 0%Z) cl (pred j) (k_corr s) (k_cmat s)) /\
      (** every prediction is the last class or the label of a point below |t| *)
      (forall i j, In i t -> j < length ks ->
         pred j i = last cl 0%Z \/ exists x, x < length t /\ ~ In x t /\ pred j i = nth x lab 0%Z) /\
      (** distances to all other points are ignored *)
      (forall D' : arr2 f64, nrow D' = nrow D -> ncol D' = ncol D ->
         (forall i x, In i t -> x < length t -> ~ In x t -> at2 D i x = at2 D' i x) ->
         score argsort rp sh D' lab ks metric (Some t) None = Ok out).
Proof.
  intros argsort AS rp RP sh SH D lab ks metric t cl Hsq HL Hv Hn Hr Hcl. rewrite (distinct_unique _ _ Hcl).
  destruct (test_full f64_cmp argsort AS rp RP sh SH D lab ks metric t Hsq HL Hv Hn Hr) as (out & pred & E & L & Hd & Hp).
  exists out, pred. split; [exact E|]. split; [exact L|]. split; [intros j s Hs; now apply (Hd j s)|]. split.
  - intros i j Hi Hj. destruct (Hp i j Hi Hj) as [Ep|Ep]; [left|now right]. rewrite Ep.
    apply nth_last.
  - intros D' HR HC H. rewrite <- E. symmetry. now apply (test_ignores f64_cmp argsort AS rp RP sh SH).
Qed.

Theorem C24_leading_test_set :
  forall argsort, argsort_ok argsort ->
  forall rp, (forall i l, Permutation (rp i l) l) ->
  forall sh, (forall (i j : nat) l, Permutation (sh i j l) l) ->
  forall (D : arr2 f64) lab ks metric m cl,
    nrow D = ncol D -> length lab = nrow D -> valid_metric metric = true -> m <= nrow D -> distinct_sorted lab cl ->
    exists out, score argsort rp sh D lab ks metric (Some (seq 0 m)) None = Ok out /\ length out = length ks /\
      forall s i, In s out -> i < m -> k_corr s i = (nth i lab 0 =? last cl 0)%Z.
Proof.
  intros argsort AS rp RP sh SH D lab ks metric m cl Hsq HL Hv Hm Hcl.
  destruct (C24_wrong_training_set argsort AS rp RP sh SH D lab ks metric (seq 0 m) cl) as (out & pred & E & L & Hd & Hp & _);
    auto; [apply seq_NoDup|intros x Hx; apply in_seq in Hx; lia|].
  exists out. split; [exact E|]. split; [exact L|]. intros s i Hs Hi.
  assert (Hin : In i (seq 0 m)) by (apply in_seq; lia).
  destruct (In_nth_error _ _ Hs) as (j & Hj). rewrite (de_corr _ _ _ _ _ _ (Hd j s Hj) i Hin).
  assert (Hjl : j < length ks) by (rewrite <- L; apply nth_error_Some; congruence).
  destruct (Hp i j Hin Hjl) as [->|(x & Hx & Hnx & _)]; [reflexivity|].
  exfalso. apply Hnx. rewrite seq_length in Hx. apply in_seq. lia.
Qed.

(** two well separated groups {0,2} and {1,3}; points 0 and 1 are tested: both get
    label 2, although 0's only near neighbour has label 1 *)
Definition sepD : arr2 f64 := of_rows n0 (map (map z64)
  [[0; 9; 1; 9]; [9; 0; 9; 1]; [1; 9; 0; 9]; [9; 1; 9; 0]]%Z).
Example C24_separable :
  exists s s', score ref_argsort (fun _ l => l) (fun _ _ l => l) sepD [1; 2; 1; 2]%Z [1%Z] "distance" (Some [0; 1]) None = Ok [s] /\
    k_corr s 0 = false /\
    score ref_argsort (fun _ l => l) (fun _ _ l => l) sepD [1; 2; 1; 2]%Z [1%Z] "distance" None None = Ok [s'] /\
    k_corr s' 0 = true.
Proof.
  eexists. eexists. split; [reflexivity|]. split; [vm_compute; reflexivity|].
  split; [reflexivity|]. vm_compute. reflexivity.
Qed.

(** ** C25: F measures *)
Theorem C25_f1_exact : forall TN FP FN TP : nat,
  f1_score (V:=xr) (Tab TN FP FN TP) =
  XFin (if TP =? 0 then 0 else 2 * INR TP / (2 * INR TP + INR FP + INR FN))%R.
Proof. intros. exact (f1_exact (Tab TN FP FN TP)). Qed.

Lemma unit_nle (x : f64) : is_finite x = true -> (0 <= B2R x <= 1)%R -> nle n0 x = true /\ nle x n1 = true.
Proof.
  intros F B. destruct n0_f64 as (E0 & F0). destruct n1_f64 as (E1 & F1).
  split; apply nle_B2R; auto; [rewrite E0|rewrite E1]; lra.
Qed.

Theorem C25_f1_range : forall TN FP FN TP : nat, (Z.of_nat (TP + FP + FN)%nat <= 2 ^ 53)%Z ->
  nle n0 (f1_score (V:=f64) (Tab TN FP FN TP)) = true /\ nle (f1_score (V:=f64) (Tab TN FP FN TP)) n1 = true.
Proof. intros. destruct (f1_range64 (Tab TN FP FN TP)) as (F & B); [assumption|]. now apply unit_nle. Qed.

Theorem C25_micro : forall ts : list tab,
  f1_micro (V:=xr) ts =
  XFin (let TP := sum_nat (map tp ts) in let FP := sum_nat (map fp ts) in let FN := sum_nat (map fn ts) in
        if TP =? 0 then 0 else 2 * INR TP / (2 * INR TP + INR FP + INR FN))%R.
Proof.
  intros ts. unfold f1_micro. rewrite f1_exact. cbv zeta.
  assert (E : tp (fold_right tab_add (Tab 0 0 0 0) ts) = sum_nat (map tp ts) /\
              fp (fold_right tab_add (Tab 0 0 0 0) ts) = sum_nat (map fp ts) /\
              fn (fold_right tab_add (Tab 0 0 0 0) ts) = sum_nat (map fn ts)).
  { induction ts as [|t ts (I1 & I2 & I3)]; simpl; [auto|]. rewrite I1, I2, I3. auto. }
  destruct E as (-> & -> & ->). reflexivity.
Qed.

(** macro and weighted averages, for every way numpy may associate its sums *)
Theorem C25_macro_range : forall (ts : list tab) (r : f64), ts <> [] -> (Z.of_nat (length ts) <= 2 ^ 53)%Z ->
  (forall t, In t ts -> (Z.of_nat (tp t + fp t + fn t)%nat <= 2 ^ 53)%Z) ->
  f1_macro ts r -> nle n0 r = true /\ nle r n1 = true.
Proof. intros ts r H1 H2 H3 H. destruct (macro_range ts r H1 H2 H3 H) as (F & B). now apply unit_nle. Qed.

Theorem C25_weighted_range : forall (ts : list tab) (r : f64),
  (forall t, In t ts -> (Z.of_nat (tp t + fp t + fn t)%nat <= 2 ^ 53)%Z) ->
  (Z.of_nat (sum_nat (map (fun t => (fn t + tp t)%nat) ts)) <= 2 ^ 53)%Z ->
  f1_weighted ts (Ok r) -> nle n0 r = true /\ nle r n1 = true.
Proof. intros ts r H1 H2 H. destruct (weighted_range ts r H1 H2 H) as (F & B). now apply unit_nle. Qed.

Theorem C25_weighted_error : forall (ts : list tab) (r : result f64), f1_weighted ts r ->
  (r = Raise ZeroDivisionError <-> forall t, In t ts -> fn t = 0 /\ tp t = 0).
Proof.
  intros ts r H. unfold f1_weighted in H.
  assert (S0 : sum_nat (map tab_weight ts) = 0 <-> forall t, In t ts -> fn t = 0 /\ tp t = 0).
  { clear. induction ts as [|t ts IH]; simpl; [intuition|]. unfold tab_weight at 1. split.
    - intros H x [<-|Hx]; [lia|]. apply IH; [lia|assumption].
    - intros H. destruct (H t (or_introl eq_refl)). rewrite (proj2 IH) by (intros; apply H; now right). lia. }
  destruct (Nat.eqb_spec (sum_nat (map tab_weight ts)) 0) as [E|E].
  - split; [intros _; now apply S0|auto].
  - destruct H as (s & _ & ->). split; [discriminate|]. intros H. apply S0 in H. contradiction.
Qed.

(** exact averages *)
Lemma np_sum_exact (l : list xr) s : np_sum l s -> forall rs : list R, l = map XFin rs ->
  s = XFin (fold_right Rplus 0%R rs).
Proof.
  induction 1 as [|v|l1 l2 v1 v2 N1 N2 H1 IH1 H2 IH2]; intros rs E.
  - destruct rs; [reflexivity|discriminate].
  - destruct rs as [|r [|]]; try discriminate. simpl in *. injection E as ->. now rewrite Rplus_0_r.
  - symmetry in E. apply map_eq_app in E. destruct E as (r1 & r2 & -> & <- & <-).
    rewrite (IH1 r1 eq_refl), (IH2 r2 eq_refl). simpl. f_equal.
    clear. induction r1 as [|x r1 IH]; simpl; [lra|]. rewrite <- IH. lra.
Qed.

Definition f1_value (t : tab) : R :=
  if tp t =? 0 then 0%R else (2 * INR (tp t) / (2 * INR (tp t) + INR (fp t) + INR (fn t)))%R.

Theorem C25_macro_exact : forall (ts : list tab) (r : xr), ts <> [] -> f1_macro ts r ->
  r = XFin (fold_right Rplus 0 (map f1_value ts) / INR (length ts))%R.
Proof.
  intros ts r Hne (s & Hs & ->). rewrite (np_sum_exact _ _ Hs (map f1_value ts)).
  - unfold nofnat. cbn [ndiv nofZ Num_xr]. rewrite <- INR_IZR_INZ. apply xdiv_fin.
    apply not_0_INR. destruct ts; [congruence|discriminate].
  - rewrite map_map. apply map_ext. intros t. apply f1_exact.
Qed.

Theorem C25_weighted_exact : forall (ts : list tab) (r : xr), f1_weighted ts (Ok r) ->
  r = XFin (fold_right Rplus 0 (map (fun t => f1_value t * INR (fn t + tp t)) ts) /
            INR (sum_nat (map (fun t => (fn t + tp t)%nat) ts)))%R.
Proof.
  intros ts r H. unfold f1_weighted in H.
  destruct (Nat.eqb_spec (sum_nat (map tab_weight ts)) 0) as [E|E]; [discriminate|].
  destruct H as (s & Hs & Hr). injection Hr as ->.
  rewrite (np_sum_exact _ _ Hs (map (fun t => f1_value t * INR (fn t + tp t))%R ts)).
  - unfold nofnat. cbn [ndiv nofZ Num_xr]. rewrite <- INR_IZR_INZ. apply xdiv_fin.
    now apply not_0_INR.
  - rewrite map_map. apply map_ext. intros t. rewrite f1_exact. unfold nofnat, tab_weight.
    cbn [nmul nofZ Num_xr xmul]. now rewrite <- INR_IZR_INZ.
Qed.

Example C25_ex : nle n0 (f1_score (V:=f64) (Tab 5 2 1 7)) = true /\ nlt (f1_score (V:=f64) (Tab 5 2 1 7)) n1 = true.
Proof. vm_compute. auto. Qed.
Example C25_ex_macro : exists r : f64, f1_macro [Tab 5 2 1 7; Tab 0 0 3 0; Tab 1 1 1 1] r.
Proof.
  eexists. eexists. split; [|reflexivity]. cbn [map].
  apply (ns_app [_] [_; _]); [discriminate|discriminate|constructor|].
  apply (ns_app [_] [_]); [discriminate|discriminate|constructor|constructor].
Qed.

(** ** C26 *)
Theorem C26_predict_test_ind_fails :
  forall argsort rp sh (D : arr2 f64) target ks metric t,
    nrow D = ncol D -> valid_metric metric = true ->
    predict argsort rp sh D target ks metric (Some t) None = Raise UnboundLocalError.
Proof.
  intros argsort rp sh D target ks metric t Hsq Hv. unfold predict.
  assert (C1 : check_distance_matrix_shape (Dense [nrow D; ncol D]) = Ok tt)
    by (unfold check_distance_matrix_shape, check_is_nD_array, dim0, dim1; simpl; now rewrite Hsq, Nat.eqb_refl).
  assert (C3 : check_valid_metric_parameter metric = Ok tt)
    by (unfold check_valid_metric_parameter, valid_metric in *;
        destruct (is_dist metric), (is_sim metric); simpl in *; auto; discriminate).
  rewrite C1, C3. reflexivity.
Qed.

Theorem C26_predict_without_test_ind :
  forall argsort, argsort_ok argsort ->
  forall rp, (forall i l, Permutation (rp i l) l) ->
  forall sh, (forall (i j : nat) l, Permutation (sh i j l) l) ->
  forall (D : arr2 f64) target ks metric c,
    nrow D = ncol D -> length target = nrow D -> valid_metric metric = true ->
    (forall r, In r target -> length r = c) -> (forall k, In k ks -> (0 < k)%Z) ->
    exists y, predict argsort rp sh D target ks metric None None = Ok y.
Proof.
  intros argsort AS rp RP sh SH D target ks metric c Hsq HT Hv Hc Hk.
  destruct (predict_loo f64_cmp argsort AS rp RP sh SH D target ks metric c Hsq ltac:(lia) Hv) as (y & E & _).
  - intros x Hx. apply Hc, nth_In, Hx.
  - assumption.
  - now exists y.
Qed.

(** ** C50: predict returns class numbers, not labels *)
Theorem C50_predict_returns_ranks :
  forall argsort, argsort_ok argsort ->
  forall rp, (forall i l, Permutation (rp i l) l) ->
  forall sh, (forall (i j : nat) l, Permutation (sh i j l) l) ->
  forall (D : arr2 f64) target ks metric c cl,
    nrow D = ncol D -> length target = nrow D -> valid_metric metric = true ->
    (forall r, In r target -> length r = c) -> (forall k, In k ks -> 0 < k) ->
    distinct_sorted (concat target) cl ->
    exists y (idx : nat -> list nat), predict argsort rp sh D target (map Z.of_nat ks) metric None None = Ok y /\
      length y = nrow D /\
      forall i, i < nrow D -> length (nth i y []) = length ks /\
        ranking (fun x y => nearer metric (rank_value metric D i x) (rank_value metric D i y))
          (fun x => x < nrow D /\ nisnan (rank_value metric D i x) = false) (idx i) /\
        (has_finite_neighbor metric D i -> forall j l, j < length ks -> l < c ->
          let returned := nth l (nth j (nth i y []) []) 0 in
          exists label, elected (map (fun x => nth l (nth x target []) 0%Z)
             (filter (fun x => nisfin (rank_value metric D i x)) (firstn (nth j ks 0) (idx i)))) label /\
           nth_error cl returned = Some label).
Proof.
  intros argsort AS rp RP sh SH D target ks metric c cl Hsq HT Hv Hc Hk Hcl. rewrite (distinct_unique _ _ Hcl).
  destruct (predict_elected f64_cmp argsort AS rp RP sh SH D target (map Z.of_nat ks) metric c Hsq ltac:(lia) Hv)
    as (y & Ey & Ly & Hy).
  { intros x Hx. apply Hc, nth_In, Hx. }
  { intros k Hin. apply in_map_iff in Hin. destruct Hin as (k' & <- & Hk'). specialize (Hk k' Hk'). lia. }
  exists y, (m_idx argsort rp metric false D (seq 0 (nrow D))). split; [exact Ey|]. split; [exact Ly|].
  intros i Hi. destruct (Hy i Hi) as (Li & Hj). rewrite map_length in *. split; [exact Li|].
  destruct (loo_full f64_cmp argsort AS rp RP sh SH D (repeat 0%Z (nrow D)) [] metric Hsq (repeat_length _ _) Hv)
    as (o1 & p1 & _ & _ & _ & Hr). destruct (Hr i Hi) as (Rk & _). split; [exact Rk|].
  intros Hf j l Hjl Hl returned. destruct (Hj j Hjl) as (Lj & Hl'). destruct (Hl' l Hl) as (B & El).
  specialize (El Hf). rewrite prefix_ks in El. fold returned in El, B.
  exists (nth returned (unique_labels (concat target)) 0%Z). split; [exact El|].
  now apply nth_error_nth'.
Qed.

Theorem C50_witness : exists y,
  predict ref_argsort (fun _ l => l) (fun _ _ l => l) sepD [[10]; [20]; [10]; [20]]%Z [1%Z] "distance" None None = Ok y /\
  y = [[[0]]; [[1]]; [[0]]; [[1]]].
Proof. eexists. split; [vm_compute; reflexivity|reflexivity]. Qed.

(** with k = 0 there are no voters: predict raises ValueError for every
    non-empty problem *)
Theorem C50_zero_k_raises :
  forall argsort rp sh (D : arr2 f64) target ks metric sample,
    0 < nrow D -> (match sample with None => nrow D = ncol D
                   | Some s => length s = ncol D /\ ncol D <= nrow D /\ forall x, In x s -> x < nrow D end) ->
    nrow D <= length target -> valid_metric metric = true ->
    0 < length (nth 0 target []) -> In 0%Z ks ->
    predict argsort rp sh D target ks metric None sample = Raise ValueError.
Proof.
  intros argsort rp sh D target ks metric sample Hn Hs HT Hv Hc H0.
  assert (MR : forall A B (f : A -> result B) l, (forall a e, f a = Raise e -> e = ValueError) ->
            (exists a, In a l /\ f a = Raise ValueError) -> mapM f l = Raise ValueError).
  { intros A B f l He. induction l as [|a l IH]; intros (b & Hb & E); [destruct Hb|]. cbn [mapM].
    destruct (f a) as [v|e] eqn:Ea; cbn [bind].
    - destruct Hb as [-> | Hb]; [congruence|]. rewrite IH by (now exists b). reflexivity.
    - now rewrite (He _ _ Ea). }
  assert (MO : forall A B (f : A -> result B) l e, (forall a e, f a = Raise e -> e = ValueError) -> mapM f l = Raise e -> e = ValueError).
  { intros A B f l e He. induction l as [|a l IH]; cbn [mapM]; [discriminate|]. destruct (f a) as [v|e'] eqn:Ea; cbn [bind].
    - destruct (mapM f l); cbn [bind]; [discriminate|]. intros E. apply IH. congruence.
    - intros E. apply (He a). congruence. }
  assert (PV : forall l e, predict_vote l = Raise e -> e = ValueError) by (intros [|a l] e; cbn; congruence).
  assert (VN : forall row sh ks j idx, In 0%Z ks -> In [] (knn_voters (V := f64) row sh j ks idx)).
  { clear. intros row sh ks. induction ks as [|k ks IH]; intros j idx H; [destruct H|]. cbn [knn_voters]. destruct H as [-> | H].
    - unfold prefix. cbn. now left.
    - destruct (filter _ _); right; now apply IH. }
  assert (C3 : check_valid_metric_parameter metric = Ok tt)
    by (unfold check_valid_metric_parameter, valid_metric in *;
        destruct (is_dist metric), (is_sim metric); simpl in *; auto; discriminate).
  unfold predict. destruct sample as [s|].
  - destruct Hs as (Hs & Hle & Hin).
    replace (check_sample_shape_fits _ _) with (Ok tt : result unit)
      by (cbn -[Nat.ltb]; rewrite Nat.mul_1_r, Hs, Nat.eqb_refl, (proj2 (Nat.ltb_ge _ _) Hle); reflexivity).
    rewrite C3. cbn [bind guard negb]. replace (length target <? nrow D) with false by (symmetry; apply Nat.ltb_ge; lia).
    cbn [guard bind]. assert (Ex : existsb (fun x => nrow D <=? x) s = false).
    { apply not_true_iff_false. intros Ht. apply existsb_exists in Ht. destruct Ht as (x & Hx & E). apply Nat.leb_le in E. specialize (Hin x Hx). lia. }
    rewrite Ex. cbn [guard bind].
    apply MR; [intros a e; apply MO; intros b e'; apply MO; intros; eapply PV; eassumption|]. exists 0. split; [apply in_seq; lia|].
      apply MR; [intros b e'; apply MO; intros; eapply PV; eassumption|]. exists []. split; [now apply VN|].
      apply MR; [intros; eapply PV; eassumption|]. exists 0. split; [apply in_seq; lia|reflexivity].
  - replace (check_distance_matrix_shape _) with (Ok tt : result unit) by (cbn; rewrite Hs, Nat.eqb_refl; reflexivity).
    rewrite C3. cbn [bind guard negb]. replace (length target <? nrow D) with false by (symmetry; apply Nat.ltb_ge; lia).
    cbn [guard bind].
    apply MR; [intros a e; apply MO; intros b e'; apply MO; intros; eapply PV; eassumption|]. exists 0. split; [apply in_seq; lia|].
    apply MR; [intros b e'; apply MO; intros; eapply PV; eassumption|]. exists []. split; [now apply VN|].
    apply MR; [intros; eapply PV; eassumption|]. exists 0. split; [apply in_seq; lia|reflexivity].
Qed.

(** ** the hypotheses are satisfiable *)
Example knn_hyps :
  argsort_ok (ref_argsort (V:=f64)) /\ nrow sepD = ncol sepD /\
  has_finite_neighbor "distance" sepD 0 /\ distinct_sorted [1; 2; 1; 2]%Z [1; 2]%Z.
Proof.
  split; [apply (ref_argsort_ok f64_cmp)|]. split; [reflexivity|]. split; [split|split].
  - exists 2. split; [simpl; lia|]. split; [discriminate|reflexivity].
  - intros x Hx _. left. destruct x as [|[|[|[|]]]]; try reflexivity. simpl in Hx. lia.
  - repeat constructor.
  - intros c. simpl. intuition.
Qed.

Print Assumptions C50_zero_k_raises.
Print Assumptions C20_leave_one_out.
Print Assumptions C20_sample.
Print Assumptions C20_test_set.
Print Assumptions C21_exact_accuracy.
Print Assumptions C21_float_accuracy_above_one.
Print Assumptions C22_score_no_leak.
Print Assumptions C22_predict_no_leak.
Print Assumptions C23_majority.
Print Assumptions C23_majority_sample.
Print Assumptions C23_tie_outsider.
Print Assumptions C23_tie_witness.
Print Assumptions C24_wrong_training_set.
Print Assumptions C24_leading_test_set.
Print Assumptions C25_f1_exact.
Print Assumptions C25_f1_range.
Print Assumptions C25_micro.
Print Assumptions C25_macro_range.
Print Assumptions C25_weighted_range.
Print Assumptions C25_weighted_error.
Print Assumptions C25_macro_exact.
Print Assumptions C25_weighted_exact.
Print Assumptions C26_predict_test_ind_fails.
Print Assumptions C26_predict_without_test_ind.
Print Assumptions C50_predict_returns_ranks.
