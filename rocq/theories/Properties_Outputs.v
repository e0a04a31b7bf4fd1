(** C188: predict with several outputs and with renamed classes.

    predict returns, for every object, k and output, a position in the sorted list of
    the distinct labels of ALL outputs (C50).  [cl] below is this list, so that
    [nth_error cl r = Some c] reads "the number r stands for the label c". *)
From Coq Require Import String.
From Coq Require Import ZArith List Arith Lia Bool Permutation Sorting.
From Verif Require Import Py Num Arr Sort S_Neighbors S_SNN S_KNN M_IO M_GK M_SNN M_KNN P_GK P_GK2 P_SNN P_KNN P_KNN2 P_KNN3 P_KNN4 Properties_Classes Properties_KNN.
Import ListNotations.
Local Open Scope string_scope.
Local Open Scope nat_scope.

(** label of object [x] for output [l] *)
Definition label_of (target : list (list Z)) (l x : nat) : Z := nth l (nth x target []) 0%Z.

Lemma predict_voters (argsort : list f64 -> list nat) : argsort_ok argsort ->
  forall rp, (forall i l, Permutation (rp i l) l) ->
  forall sh, (forall (i j : nat) l, Permutation (sh i j l) l) ->
  forall (D : arr2 f64) ks metric, nrow D = ncol D -> valid_metric metric = true -> (forall k, In k ks -> (0 < k)%Z) ->
  exists voters : nat -> nat -> list nat,
    (forall i j, i < nrow D -> j < length ks -> voters i j <> [] /\ forall x, In x (voters i j) -> x < nrow D) /\
    forall target c cl, length target = nrow D -> (forall r, In r target -> length r = c) ->
      distinct_sorted (concat target) cl ->
      exists y, predict argsort rp sh D target ks metric None None = Ok y /\
        length y = nrow D /\ forall i, i < nrow D -> length (nth i y []) = length ks /\
        forall j, j < length ks -> length (nth j (nth i y []) []) = c /\ forall l, l < c ->
        exists lab, nth_error cl (nth l (nth j (nth i y []) []) 0) = Some lab /\
          elected (map (label_of target l) (voters i j)) lab.
Proof.
  intros AS rp RP sh SH D ks metric Hsq Hv Hk. set (n := nrow D).
  exists (fun i j => nth j (knn_voters (knn_row metric false D i) (sh i) 0 ks
                 (knn_idx argsort metric (knn_row metric false D i) (rp i (seq 0 n)))) []).
  assert (IN : forall i j, i < n -> j < length ks -> forall x, In x (nth j (knn_voters (knn_row metric false D i) (sh i) 0 ks
                 (knn_idx argsort metric (knn_row metric false D i) (rp i (seq 0 n)))) []) -> x < n).
  { intros i j Hi Hj x Hx.
    assert (Hxn : In x (seq 0 n)).
    { eapply (voter_cand f64_cmp argsort AS rp RP sh SH metric false D ks (seq 0 n) i (seq_NoDup n 0)); [|exact Hx].
      apply nth_In. now rewrite voters_length. }
    apply in_seq in Hxn. lia. }
  split.
  - intros i j Hi Hj. split; [|now apply IN].
    destruct (predict_loo f64_cmp argsort AS rp RP sh SH D (repeat [0%Z] n) ks metric 1 Hsq) as (y & _ & _ & Hy).
    + now rewrite repeat_length.
    + exact Hv.
    + intros x Hx. rewrite repeat_length in Hx. rewrite (nth_indep _ _ [0%Z]) by now rewrite repeat_length. now rewrite nth_repeat.
    + exact Hk.
    + destruct (Hy i Hi) as (_ & Hj'). destruct (Hj' j Hj) as (_ & Hl). destruct (Hl 0 ltac:(lia)) as (_ & Ne). exact Ne.
  - intros target c cl HT Hc Hcl. rewrite (distinct_unique _ _ Hcl). clear cl Hcl.
    set (cl := unique_labels (concat target)).
    destruct (predict_loo f64_cmp argsort AS rp RP sh SH D target ks metric c Hsq ltac:(fold n; lia) Hv) as (y & Ey & Ly & Hy).
    { intros x Hx. apply Hc, nth_In, Hx. }
    { exact Hk. }
    exists y. split; [exact Ey|]. split; [exact Ly|]. intros i Hi. destruct (Hy i Hi) as (Li & Hj). split; [exact Li|].
    intros j Hjk. destruct (Hj j Hjk) as (Lj & Hl). split; [exact Lj|]. intros l Hlc. destruct (Hl l Hlc) as (E & Ne).
    fold n in Ne, E. rewrite E. clear E Hl Hj Hy.
    set (nn := nth j (knn_voters (knn_row metric false D i) (sh i) 0 ks
                 (knn_idx argsort metric (knn_row metric false D i) (rp i (seq 0 n)))) []) in *.
    fold cl. set (col := map (fun r => nth l r 0) (map (map (class_index cl)) target)).
    assert (E : nth j (knn_point argsort rp sh metric false D ks (length cl) col (seq 0 n) i) 0 =
                knn_vote (length cl) (take 0 col nn)).
    { unfold knn_point. rewrite (nth_map_in (fun nn => knn_vote (length cl) (take 0 col nn)) _ j 0 []) by (now rewrite voters_length). reflexivity. }
    rewrite E. clear E.
    assert (Hin : forall x, In x nn -> In (label_of target l x) cl /\ nth x col 0 = class_index cl (label_of target l x)).
    { intros x Hx. assert (Hxn : x < n) by (apply (IN i j Hi Hjk); exact Hx). split.
      - apply unique_In, in_concat. exists (nth x target []). split; [apply nth_In; lia|]. apply nth_In.
        rewrite (Hc (nth x target [])); [exact Hlc|apply nth_In; lia].
      - unfold col. rewrite map_map. rewrite (nth_map_in _ _ x 0 []) by lia.
        rewrite (nth_map_in _ _ l 0 0%Z); [reflexivity|]. rewrite (Hc (nth x target [])); [exact Hlc|apply nth_In; lia]. }
    assert (Hlt : forall a, In a (take 0 col nn) -> a < length cl).
    { intros a Ha. unfold take in Ha. apply in_map_iff in Ha. destruct Ha as (x & <- & Hx). destruct (Hin x Hx) as (I & ->).
      now apply class_index_lt. }
    assert (Nt : take 0 col nn <> []) by (unfold take; intros E; now apply map_eq_nil in E).
    exists (nth (knn_vote (length cl) (take 0 col nn)) cl 0%Z). split.
    + apply nth_error_nth'. now apply Hlt, vote_in.
    + assert (Em : map (fun c => nth c cl 0%Z) (take 0 col nn) = map (label_of target l) nn).
      { unfold take. rewrite map_map. apply map_ext_in. intros x Hx. destruct (Hin x Hx) as (I & ->). now apply class_index_nth. }
      rewrite <- Em. apply vote_elected; [|exact Nt|exact Hlt].
      apply unique_NoDup.
Qed.

(** ** every output is predicted as if it were alone, whatever the other outputs are, and
    renaming the labels of an output renames its predictions *)
Theorem C188_outputs_independent :
  forall argsort, argsort_ok argsort ->
  forall rp, (forall i l, Permutation (rp i l) l) ->
  forall sh, (forall (i j : nat) l, Permutation (sh i j l) l) ->
  forall (D : arr2 f64) ks metric target target' c c' cl cl',
    nrow D = ncol D -> valid_metric metric = true -> (forall k, In k ks -> (0 < k)%Z) ->
    length target = nrow D -> (forall r, In r target -> length r = c) -> distinct_sorted (concat target) cl ->
    length target' = nrow D -> (forall r, In r target' -> length r = c') -> distinct_sorted (concat target') cl' ->
    exists y y', predict argsort rp sh D target ks metric None None = Ok y /\
      predict argsort rp sh D target' ks metric None None = Ok y' /\
      forall l l' (rename : Z -> Z), l < c -> l' < c' ->
        (forall x, x < nrow D -> label_of target' l' x = rename (label_of target l x)) ->
        injective_on rename (map (label_of target l) (seq 0 (nrow D))) ->
        forall i j, i < nrow D -> j < length ks ->
          exists lab, nth_error cl (nth l (nth j (nth i y []) []) 0) = Some lab /\
            nth_error cl' (nth l' (nth j (nth i y' []) []) 0) = Some (rename lab).
Proof.
  intros argsort AS rp RP sh SH D ks metric target target' c c' cl cl' Hsq Hv Hk HT Hc Hcl HT' Hc' Hcl'.
  destruct (predict_voters argsort AS rp RP sh SH D ks metric Hsq Hv Hk) as (V & HV & HP).
  destruct (HP target c cl HT Hc Hcl) as (y & Ey & _ & Hy).
  destruct (HP target' c' cl' HT' Hc' Hcl') as (y' & Ey' & _ & Hy').
  exists y, y'. split; [exact Ey|]. split; [exact Ey'|]. intros l l' f Hl Hl' Hf Inj i j Hi Hj.
  destruct (HV i j Hi Hj) as (Ne & In_).
  destruct (Hy i Hi) as (_ & A). destruct (A j Hj) as (_ & A'). destruct (A' l Hl) as (lab & E & El).
  destruct (Hy' i Hi) as (_ & B). destruct (B j Hj) as (_ & B'). destruct (B' l' Hl') as (lab' & E' & El').
  exists lab. split; [exact E|]. rewrite E'. f_equal.
  assert (Em : map (label_of target' l') (V i j) = map f (map (label_of target l) (V i j))).
  { rewrite map_map. apply map_ext_in. intros x Hx. apply Hf, In_, Hx. }
  rewrite Em in El'. apply (elected_unique _ _ _ El'). apply elected_map; [|  |exact El].
  - intros Z. now apply map_eq_nil in Z.
  - intros a b Ha Hb. apply Inj; [clear - In_ Ha|clear - In_ Hb].
    + apply in_map_iff in Ha. destruct Ha as (x & <- & Hx). apply in_map, in_seq. specialize (In_ x Hx). lia.
    + apply in_map_iff in Hb. destruct Hb as (x & <- & Hx). apply in_map, in_seq. specialize (In_ x Hx). lia.
Qed.

Lemma sorted_app (a b : list Z) : StronglySorted Z.lt a -> StronglySorted Z.lt b ->
  (forall x y, In x a -> In y b -> (x < y)%Z) -> StronglySorted Z.lt (a ++ b)%list.
Proof.
  induction 1 as [|x a Sa IH Fx]; intros Sb H; [exact Sb|]. simpl. constructor.
  - apply IH; [exact Sb|]. intros u v Hu Hv. apply H; [now right|exact Hv].
  - apply Forall_app. split; [exact Fx|]. apply Forall_forall. intros v Hv. apply H; [now left|exact Hv].
Qed.
Lemma sorted_lt_NoDup (a : list Z) : StronglySorted Z.lt a -> NoDup a.
Proof.
  induction 1 as [|x a Sa IH Fx]; constructor; [|exact IH]. intros Hx. rewrite Forall_forall in Fx. specialize (Fx x Hx). lia.
Qed.

(** ** DEFECT: the numbers returned for an output depend on the labels of the others.
    Adding an output whose [m] distinct labels are all smaller adds [m] to every number. *)
Theorem C188_numbers_shift :
  forall argsort, argsort_ok argsort ->
  forall rp, (forall i l, Permutation (rp i l) l) ->
  forall sh, (forall (i j : nat) l, Permutation (sh i j l) l) ->
  forall (D : arr2 f64) ks metric target c (extra : nat -> Z) new,
    nrow D = ncol D -> valid_metric metric = true -> (forall k, In k ks -> (0 < k)%Z) ->
    length target = nrow D -> (forall r, In r target -> length r = c) ->
    distinct_sorted (map extra (seq 0 (nrow D))) new ->
    (forall x a, x < nrow D -> In a (concat target) -> (extra x < a)%Z) ->
    exists y y', predict argsort rp sh D target ks metric None None = Ok y /\
      predict argsort rp sh D (map (fun x => (nth x target [] ++ [extra x])%list) (seq 0 (nrow D))) ks metric None None = Ok y' /\
      forall i j l, i < nrow D -> j < length ks -> l < c ->
        nth l (nth j (nth i y' []) []) 0 = length new + nth l (nth j (nth i y []) []) 0.
Proof.
  intros argsort AS rp RP sh SH D ks metric target c extra new Hsq Hv Hk HT Hc Hnew Hless.
  set (n := nrow D) in *. set (target' := map (fun x => (nth x target [] ++ [extra x])%list) (seq 0 n)).
  set (cl := unique_labels (concat target)).
  assert (Hcl : distinct_sorted (concat target) cl) by (split; [apply unique_sorted|intros; apply unique_In]).
  assert (Hrow : forall x, x < n -> nth x target' [] = (nth x target [] ++ [extra x])%list).
  { intros x Hx. unfold target'. now rewrite nth_map_seq. }
  assert (LT' : length target' = n) by (unfold target'; now rewrite map_length, seq_length).
  assert (Hcl' : distinct_sorted (concat target') ((new ++ cl)%list)).
  { destruct Hnew as (S1 & I1). destruct Hcl as (S2 & I2). split.
    - apply sorted_app; [exact S1|exact S2|]. intros a b Ha Hb. apply I1, in_map_iff in Ha. destruct Ha as (x & <- & Hx).
      apply in_seq in Hx. apply Hless; [lia|]. now apply I2.
    - intros a. rewrite in_app_iff, I1, I2, in_map_iff, !in_concat. split.
      + intros [(x & <- & Hx)|(r & Hr & Ha)].
        * apply in_seq in Hx. exists (nth x target []  ++ [extra x])%list. split; [|apply in_app_iff; right; now left].
          unfold target'. apply in_map_iff. exists x. split; [reflexivity|apply in_seq; lia].
        * destruct (In_nth _ _ [] Hr) as (x & Hx & <-). exists (nth x target []  ++ [extra x])%list.
          split; [|apply in_app_iff; now left]. unfold target'. apply in_map_iff. exists x. split; [reflexivity|apply in_seq; lia].
      + intros (r & Hr & Ha). unfold target' in Hr. apply in_map_iff in Hr. destruct Hr as (x & <- & Hx). apply in_seq in Hx.
        apply in_app_iff in Ha. destruct Ha as [Ha|[<-|[]]].
        * right. exists (nth x target []). split; [apply nth_In; lia|exact Ha].
        * left. exists x. split; [reflexivity|apply in_seq; lia]. }
  destruct (C188_outputs_independent argsort AS rp RP sh SH D ks metric target target' c (S c) cl (new ++ cl)%list
              Hsq Hv Hk HT Hc Hcl LT') as (y & y' & Ey & Ey' & H); [|exact Hcl'|].
  { intros r Hr. unfold target' in Hr. apply in_map_iff in Hr. destruct Hr as (x & <- & Hx). apply in_seq in Hx.
    rewrite app_length, (Hc (nth x target [])) by (apply nth_In; lia). simpl. lia. }
  exists y, y'. split; [exact Ey|]. split; [exact Ey'|]. intros i j l Hi Hj Hl.
  destruct (H l l (fun a => a) Hl ltac:(lia)) with (i := i) (j := j) as (lab & E & E'); [| |exact Hi|exact Hj|].
  - intros x Hx. unfold label_of. rewrite Hrow by exact Hx. apply app_nth1. rewrite (Hc (nth x target [])); [exact Hl|apply nth_In; lia].
  - intros a b _ _ Eab. exact Eab.
  - assert (ND : NoDup (new ++ cl)%list) by (destruct Hcl' as (S' & _); now apply sorted_lt_NoDup).
    assert (E2 : nth_error (new ++ cl)%list (length new + nth l (nth j (nth i y []) []) 0) = Some lab).
    { rewrite nth_error_app2 by lia. now replace (length new + nth l (nth j (nth i y []) []) 0 - length new) with (nth l (nth j (nth i y []) []) 0) by lia. }
    apply (proj1 (NoDup_nth_error _) ND); [apply nth_error_Some; congruence|congruence].
Qed.

(** a case: two outputs for the four objects of [sepD]; the second has smaller labels *)
Definition out2 : list (list Z) := [[10]; [20]; [10]; [20]]%Z.
Definition extra2 (x : nat) : Z := if x <? 2 then 3%Z else 4%Z.
Example C188_case : exists y y',
  predict ref_argsort (fun _ l => l) (fun _ _ l => l) sepD out2 [1%Z] "distance" None None = Ok y /\
  predict ref_argsort (fun _ l => l) (fun _ _ l => l) sepD
    (map (fun x => (nth x out2 [] ++ [extra2 x])%list) (seq 0 4)) [1%Z] "distance" None None = Ok y' /\
  y = [[[0]]; [[1]]; [[0]]; [[1]]] /\ y' = [[[2; 1]]; [[3; 1]]; [[2; 0]]; [[3; 0]]].
Proof. do 2 eexists. repeat split; vm_compute; reflexivity. Qed.
Example C188_case_hypotheses :
  distinct_sorted (map extra2 (seq 0 4)) [3; 4]%Z /\
  (forall x a, x < 4 -> In a (concat out2) -> (extra2 x < a)%Z) /\
  injective_on (fun a => (30 - a)%Z) (map (label_of out2 0) (seq 0 4)).
Proof.
  split; [|split].
  - split; [repeat constructor|]. intros a. simpl. intuition.
  - intros x a _ Ha. unfold extra2. simpl in Ha. destruct (x <? 2); intuition lia.
  - intros a b _ _ E. lia.
Qed.

Print Assumptions C188_outputs_independent.
Print Assumptions C188_numbers_shift.
