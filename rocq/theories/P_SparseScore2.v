(** The votes in the sparse branch of the k-NN evaluation. *)
From Coq Require Import String.
From Coq Require Import ZArith List Arith Lia Bool Permutation.
From Verif Require Import Py Num Arr Sort S_Neighbors S_SNN S_KNN M_IO M_GK M_SNN M_KNN M_MPEmpiric M_SparseKNN.
From Verif Require Import S_SparseKNN P_Neighbors P_SNN P_KNN P_KNN2 P_KNN4 P_GK P_GK2 P_SparseKNN P_SparseKNN2 P_SparseKNN3 P_SparseKNN4 P_SparseScore.
Import ListNotations.
Local Open Scope nat_scope.

Lemma filter_true {A} (f : A -> bool) l : (forall x, In x l -> f x = true) -> filter f l = l.
Proof. induction l as [|a l IH]; intros H; simpl; [reflexivity|]. rewrite H by now left. f_equal. apply IH. intros x Hx. apply H. now right. Qed.

Lemma voters_nil {V} {N : Num V} (row : list V) sh (SH : forall (j : nat) l, Permutation (sh j l) l) ks : forall j,
  knn_voters row sh j ks [] = map (fun _ => []) ks.
Proof.
  induction ks as [|k ks IH]; intros j; simpl; [reflexivity|].
  assert (E : prefix (A:=nat) [] k = []) by (unfold prefix; apply firstn_nil). rewrite E. simpl.
  assert (Es : sh j [] = []) by (apply Permutation_nil; symmetry; apply SH). rewrite Es, E, IH. reflexivity.
Qed.

Section Vote.
  Context {V : Type} {N : Num V} {toX : V -> xr} (CL : CmpLaws V N toX).
  Variable argpart : list V -> list nat -> list nat.
  Hypothesis AP : argpart_ok argpart.
  Variable rp : nat -> list nat -> list nat.
  Hypothesis RP : forall i l, Permutation (rp i l) l.
  Variable sh : nat -> nat -> list nat -> list nat.
  Hypothesis SH : forall i j l, Permutation (sh i j l) l.

  Definition pr (S : smat V) (lab : list Z) (ks : list nat) (j i : nat) : Z :=
    nth (nth j (pt argpart rp sh S lab ks i) 0) (xcl lab) 0%Z.

  Lemma pt_vote (S : smat V) (lab : list Z) (ks : list nat) i j : scol S = length lab -> clean_row S i -> sp_cols S i <> [] ->
    (forall x, linked S i x -> nisfin (sval S i x) = true) -> (forall k, In k ks -> 0 < k) -> j < length ks ->
    exists w nn, linked S i w /\ (forall x, linked S i x -> nlt (sval S i w) (sval S i x) = false) /\
      top_list (sval S i) (fun x => linked S i x /\ x <> w) (Nat.min (nth j ks 0) (length (sp_cols S i) - 1)) nn /\
      (nn = [] -> pr S lab ks j i = (last (unique_labels lab) 0 + 1)%Z) /\
      (nn <> [] -> elected (map (fun x => nth x lab 0%Z) nn) (pr S lab ks j i)).
  Proof.
    intros HC Hc Hne Hfin Hk Hj.
    destruct (pt_spec CL argpart AP rp RP sh S lab ks i HC Hc Hne) as (_ & _ & w & t & Lw & Mw & Pt & Ht & E).
    assert (Hjk : In (nth j ks 0) ks) by now apply nth_In.
    exists w, (firstn (nth j ks 0) t). split; [exact Lw|]. split; [exact Mw|]. split; [now apply Ht|].
    assert (Hlk : forall x, In x t -> linked S i x).
    { intros x Hx. apply stored_linked, (Permutation_in _ Pt). now right. }
    assert (Hz : nth j (map Z.of_nat ks) 0%Z = Z.of_nat (nth j ks 0)) by (change 0%Z with (Z.of_nat 0); apply map_nth).
    assert (Ev : nth j (knn_voters (sp_row S i) (sh i) 0 (map Z.of_nat ks) t) [] = firstn (nth j ks 0) t).
    { destruct t as [|h t].
      - rewrite voters_nil by apply SH. rewrite firstn_nil, map_map.
        change (@nil nat) with ((fun _ : nat => @nil nat) 0) at 2. now rewrite map_nth.
      - assert (Hf : forall x, In x (h :: t) -> nisfin (nth x (sp_row S i) nnan) = true).
        { intros x Hx. specialize (Hlk x Hx). unfold sp_row. rewrite nth_map_seq by apply Hlk. now apply Hfin. }
        assert (Hff : forall k l, filter (fun x => nisfin (nth x (sp_row S i) nnan)) (prefix (h :: t) (Z.of_nat k)) = l -> l = firstn k (h :: t)).
        { intros k l <-. rewrite prefix_nat. apply filter_true. intros x Hx. apply Hf.
          rewrite <- (firstn_skipn k (h :: t)). apply in_app_iff. now left. }
        rewrite voters_finite.
        + rewrite Hz. now rewrite (Hff _ _ eq_refl).
        + now rewrite map_length.
        + intros j' Hj'.
          assert (Hz' : nth j' (map Z.of_nat ks) 0%Z = Z.of_nat (nth j' ks 0)) by (change 0%Z with (Z.of_nat 0); apply map_nth).
          rewrite Hz', (Hff _ _ eq_refl). specialize (Hk (nth j' ks 0) ltac:(apply nth_In; lia)).
          destruct (nth j' ks 0); [lia|discriminate]. }
    assert (Ep : nth j (pt argpart rp sh S lab ks i) 0 =
                 knn_vote (length (xcl lab)) (take 0 (map (class_index (xcl lab)) lab) (firstn (nth j ks 0) t))).
    { rewrite E. rewrite nth_indep with (d' := (fun nn => knn_vote (length (xcl lab)) (take 0 (map (class_index (xcl lab)) lab) nn)) []).
      - set (f := fun nn => knn_vote _ _). change (knn_vote (length (xcl lab)) (take 0 (map (class_index (xcl lab)) lab) [])) with (f []).
        rewrite map_nth. unfold f. now rewrite Ev.
      - now rewrite map_length, voters_length, map_length. }
    unfold pr. rewrite Ep. split.
    - intros ->. cbn [take map]. rewrite vote_nil, xcl_length, Nat.add_sub. apply xcl_unknown.
    - intros Hnn. set (nn := firstn (nth j ks 0) t) in *.
      assert (Hr : forall x, In x nn -> In (nth x lab 0%Z) (xcl lab) /\ x < length lab).
      { intros x Hx. assert (Hx' : linked S i x). { apply Hlk. unfold nn in Hx. rewrite <- (firstn_skipn (nth j ks 0) t). apply in_app_iff. now left. }
        assert (Hl : x < length lab) by (destruct Hx'; lia). split; [|exact Hl].
        unfold xcl. apply in_app_iff. left. now apply unique_In, nth_In. }
      assert (Et : take 0 (map (class_index (xcl lab)) lab) nn = map (fun x => class_index (xcl lab) (nth x lab 0%Z)) nn).
      { unfold take. apply map_ext_in. intros x Hx. rewrite nth_indep with (d' := class_index (xcl lab) 0%Z) by (rewrite map_length; now apply Hr).
        apply map_nth. }
      rewrite Et.
      replace (map (fun x => nth x lab 0%Z) nn) with
        (map (fun c => nth c (xcl lab) 0%Z) (map (fun x => class_index (xcl lab) (nth x lab 0%Z)) nn)).
      2:{ rewrite map_map. apply map_ext_in. intros x Hx. apply class_index_nth. now apply Hr. }
      apply vote_elected.
      + apply xcl_NoDup.
      + intros H. apply map_eq_nil in H. contradiction.
      + intros c Hin. apply in_map_iff in Hin. destruct Hin as (x & <- & Hx). apply class_index_lt. now apply Hr.
  Qed.

  Lemma sparse_eval (S : smat V) (lab : list Z) (ks : list nat) metric test : srow S = length lab -> scol S = length lab ->
    lab <> [] -> valid_metric metric = true ->
    let points := match test with None => seq 0 (length lab) | Some t => t end in
    (forall i, i < length lab -> clean_row S i /\ sp_cols S i <> []) ->
    (forall i, In i points -> i < length lab) ->
    exists out, score_sparse argpart rp sh S lab (map Z.of_nat ks) metric test None = Ok out /\ length out = length ks /\
      forall j s, nth_error out j = Some s ->
        describes points (fun i => nth i lab 0%Z) (xcl lab) (pr S lab ks j) (k_corr s) (k_cmat s) /\
        consistent points (fun i => nth i lab 0%Z) (xcl lab) (k_acc s) (k_corr s) (k_cmat s).
  Proof.
    intros HR HC Hl HM points Hp Hpt.
    destruct (score_sparse_full CL argpart AP rp RP sh SH S lab ks metric test HR HC Hl HM Hp Hpt) as (out & E & L & D).
    exists out. split; [exact E|]. split; [exact L|]. intros j s Hs. destruct (D j s Hs) as (Hd & Ha).
    split; [exact Hd|].
    destruct (describes_sums _ _ _ _ _ _ (xcl_NoDup lab) Hd) as (S1 & S2 & S3).
    { intros i Hi. unfold xcl. apply in_app_iff. left. apply unique_In, nth_In. now apply Hpt. }
    split; auto.
    - apply (de_other _ _ _ _ _ _ Hd).
    - rewrite Ha, acc_rep_iter. unfold cnt. fold points. f_equal. f_equal.
      apply filter_ext_in. intros i Hi. symmetry. now apply (de_corr _ _ _ _ _ _ Hd).
  Qed.
End Vote.

Lemma xcl_spec lab : lab <> [] -> distinct_sorted lab (unique_labels lab) /\
  (forall z, In z lab -> (z <= last (unique_labels lab) 0)%Z) /\ ~ In (last (unique_labels lab) 0 + 1)%Z lab.
Proof.
  intros Hl. split; [split; [apply unique_sorted|intros c; now rewrite unique_In]|].
  assert (H : forall z, In z lab -> (z <= last (unique_labels lab) 0)%Z).
  { intros z Hz. apply SS_last_max; [apply unique_sorted|now apply unique_In]. }
  split; [exact H|]. intros Hin. specialize (H _ Hin). lia.
Qed.

(** two elections among the same voters with the same nearest one *)
Lemma elected_unique nn nn' c c' : elected nn c -> elected nn' c' -> Permutation nn nn' -> nth_error nn 0 = nth_error nn' 0 -> c = c'.
Proof.
  intros H H' P E.
  assert (Ev : forall z, zvotes nn z = zvotes nn' z) by (intros z; unfold zvotes; now apply Permutation_count_occ).
  assert (Ep : forall z, plurality nn z <-> plurality nn' z).
  { intros z. unfold plurality. split; intros Hp d Hd; specialize (Hp d Hd); now rewrite !Ev in * || (rewrite <- !Ev in *; assumption). }
  destruct H as [H|(H & H0)], H' as [H'|(H' & H0')].
  - apply Ep in H'. destruct (Z.eq_dec c c') as [|Hne]; [assumption|].
    specialize (H c' ltac:(congruence)). specialize (H' c Hne). lia.
  - exfalso. apply (H' c). now apply Ep.
  - exfalso. apply (H c'). now apply Ep.
  - congruence.
Qed.

Lemma score_sparse_fails {V} {N : Num V} argpart rp sh (S : smat V) (lab : list Z) (ks : list nat) metric e i :
  srow S = length lab -> scol S = length lab -> lab <> [] -> valid_metric metric = true -> i < length lab ->
  sp_point argpart rp sh S (map Z.of_nat ks) (length (unique_labels lab) + 1) (map (class_index (unique_labels lab)) lab) i = Raise e ->
  (forall k, k < length lab ->
     is_ok (sp_point argpart rp sh S (map Z.of_nat ks) (length (unique_labels lab) + 1) (map (class_index (unique_labels lab)) lab) k) = false ->
     sp_point argpart rp sh S (map Z.of_nat ks) (length (unique_labels lab) + 1) (map (class_index (unique_labels lab)) lab) k = Raise e) ->
  score_sparse argpart rp sh S lab (map Z.of_nat ks) metric None None = Raise e.
Proof.
  intros HR HC Hl HM Hi Ef Ho. unfold score_sparse.
  unfold check_distance_matrix_shape, check_distance_matrix_shape_fits_labels, check_is_nD_array, guard, dim0, dim1, size_of, shape_of.
  cbn [length nth fold_right]. rewrite HR, HC, Nat.mul_1_r, !Nat.eqb_refl. cbn [negb bind Nat.eqb].
  replace (check_valid_metric_parameter metric) with (Ok tt).
  2:{ unfold check_valid_metric_parameter, guard. unfold valid_metric in HM. destruct (is_dist metric), (is_sim metric); auto; discriminate. }
  cbn [bind].
  replace (length (unique_labels lab) =? 0) with false.
  2:{ symmetry. apply Nat.eqb_neq. intros E. destruct lab as [|z lab]; [congruence|].
      assert (In z (unique_labels (z :: lab))) by (apply unique_In; now left).
      destruct (unique_labels (z :: lab)); [contradiction|discriminate]. }
  cbn [bind]. rewrite existsb_false. 2:{ intros x Hx. apply in_seq in Hx. apply Nat.leb_gt. lia. }
  cbn [bind]. rewrite (mapM_first_raise _ _ e i); [reflexivity| |exact Ef|].
  - apply in_seq. lia.
  - intros k Hk. apply in_seq in Hk. apply Ho. lia.
Qed.
