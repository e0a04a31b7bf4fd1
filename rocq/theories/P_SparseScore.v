(** Lemmas about the sparse branch of the k-NN evaluation. *)
From Coq Require Import String.
From Coq Require Import ZArith List Arith Lia Bool Permutation.
From Verif Require Import Py Num Arr Sort S_Neighbors S_SNN S_KNN M_IO M_GK M_SNN M_KNN M_MPEmpiric M_SparseKNN.
From Verif Require Import S_SparseKNN P_Neighbors P_SNN P_KNN P_KNN2 P_KNN4 P_GK P_GK2 P_SparseKNN P_SparseKNN2 P_SparseKNN3 P_SparseKNN4.
Import ListNotations.
Local Open Scope nat_scope.

Section Desc.
  Context {V : Type} {N : Num V}.

  (** [fold_describes] with further classes *)
  Lemma fold_describes_gen n points (lab cl : list Z) (preds : nat -> list nat) (ks : list Z) :
    let classes := map (class_index cl) lab in
    NoDup cl -> (forall z, In z lab -> In z cl) ->
    (forall i, length (preds i) = length ks) ->
    (forall i, In i points -> i < length lab) ->
    (forall i j, In i points -> j < length ks -> nth j (preds i) 0 < length cl) ->
    let out := fold_left (fun st i => zip_upd n i (nth i classes 0) (preds i) st) points
                 (map (fun _ => @kst0 V N) ks) in
    length out = length ks /\
    forall j s, nth_error out j = Some s ->
      let pred := fun i => nth (nth j (preds i) 0) cl 0%Z in
      describes points (fun i => nth i lab 0%Z) cl pred (k_corr s) (k_cmat s) /\
      k_acc s = acc_rep n (cnt (fun i => (nth i lab 0 =? pred i)%Z) points).
  Proof.
    intros classes Hcn Hlab HL HI HP out.
    destruct (fold_zip (V:=V) n (fun i => nth i classes 0) preds (length ks) points HL
                (map (fun _ => kst0) ks) ltac:(now rewrite map_length)) as (L & E).
    fold out in L, E. split; [assumption|]. intros j s Hs pred.
    assert (Hj : j < length ks). { rewrite <- L. apply nth_error_Some. congruence. }
    specialize (E j Hj). rewrite (nth_error_nth _ _ _ Hs) in E.
    assert (E0 : nth j (map (fun _ => @kst0 V N) ks) kst0 = kst0).
    { clear. revert j. induction ks; destruct j; simpl; auto. }
    rewrite E0 in E. clear E0.
    destruct (fold_upd (V:=V) n (fun i => nth i classes 0) (fun i => nth j (preds i) 0) points kst0 0 eq_refl)
      as (A & B & C). rewrite <- E in A, B, C. rewrite Nat.add_0_r in A.
    assert (Hin : forall i, In i points -> In (nth i lab 0%Z) cl) by (intros i Hi; apply Hlab, nth_In; auto).
    assert (Hc : forall i, In i points -> nth i classes 0 = class_index cl (nth i lab 0%Z)).
    { intros i Hi. unfold classes. rewrite nth_indep with (d' := class_index cl 0%Z) by (rewrite map_length; auto).
      apply map_nth. }
    assert (HQ : forall i b, In i points -> b < length cl ->
      (nth i classes 0 =? b) = (nth i lab 0 =? nth b cl 0)%Z).
    { intros i b Hi Hb. rewrite Hc by assumption.
      destruct (Nat.eqb_spec (class_index cl (nth i lab 0%Z)) b) as [<-|Hne].
      - rewrite class_index_nth by auto. symmetry. apply Z.eqb_refl.
      - symmetry. apply Z.eqb_neq. intros E'. apply Hne. rewrite E'. now apply class_index_of_nth. }
    assert (HR : forall i b, In i points -> b < length cl ->
      (nth j (preds i) 0 =? b) = (pred i =? nth b cl 0)%Z).
    { intros i b Hi Hb. unfold pred. destruct (Nat.eqb_spec (nth j (preds i) 0) b) as [->|Hne].
      - symmetry. apply Z.eqb_refl.
      - symmetry. apply Z.eqb_neq. intros E'. apply Hne.
        apply (proj1 (NoDup_nth cl 0%Z) Hcn); auto. }
    assert (HX : forall i, In i points -> (nth i classes 0 =? nth j (preds i) 0) = (nth i lab 0 =? pred i)%Z).
    { intros i Hi. apply HQ; auto. }
    split; [split|].
    - intros i Hi. rewrite B. simpl. rewrite orb_false_r.
      destruct ((nth i lab 0 =? pred i)%Z) eqn:Ei.
      + apply existsb_exists. exists i. split; [assumption|]. now rewrite Nat.eqb_refl, HX.
      + apply not_true_iff_false. intros Ht. apply existsb_exists in Ht. destruct Ht as (x & Hx & Ex).
        apply andb_true_iff in Ex. destruct Ex as (Ex & Ey). apply Nat.eqb_eq in Ex. subst x.
        rewrite HX in Ey by assumption. congruence.
    - intros i Hi. rewrite B. simpl. rewrite orb_false_r. apply not_true_iff_false. intros Ht.
      apply existsb_exists in Ht. destruct Ht as (x & Hx & Ex).
      apply andb_true_iff in Ex. destruct Ex as (Ex & Ey). apply Nat.eqb_eq in Ex. subst x. contradiction.
    - intros a b Ha Hb. rewrite C. simpl. rewrite Nat.add_0_r. unfold cnt. f_equal.
      apply filter_ext_in. intros i Hi. rewrite HQ, HR by auto. reflexivity.
    - intros i Hi. unfold pred. apply nth_In. auto.
    - rewrite A. f_equal. apply cnt_ext. intros i Hi. now apply HX.
  Qed.
End Desc.

(** the classes of a sparse evaluation: the labels and one more for "unknown" *)
Definition xcl (lab : list Z) : list Z := unique_labels lab ++ [(last (unique_labels lab) 0 + 1)%Z].

Lemma SS_last_max (l : list Z) z : Sorted.StronglySorted Z.lt l -> In z l -> (z <= last l 0)%Z.
Proof.
  revert z. induction l as [|a l IH]; intros z HS Hz; [contradiction|]. inversion HS as [|? ? HS' Hf]; subst.
  destruct l as [|b l]; [destruct Hz as [->|[]]; simpl; lia|].
  change (last (a :: b :: l) 0%Z) with (last (b :: l) 0%Z). destruct Hz as [->|Hz]; [|now apply IH].
  rewrite Forall_forall in Hf. specialize (Hf b (or_introl eq_refl)). specialize (IH b HS' (or_introl eq_refl)). lia.
Qed.
Lemma xcl_NoDup lab : NoDup (xcl lab).
Proof.
  unfold xcl. apply (Permutation_NoDup (Permutation_cons_append _ _)). constructor; [|apply unique_NoDup].
  intros H. pose proof (SS_last_max _ _ (unique_sorted lab) H). lia.
Qed.
Lemma xcl_length lab : length (xcl lab) = length (unique_labels lab) + 1.
Proof. unfold xcl. rewrite app_length. reflexivity. Qed.
Lemma class_index_app cl cl' t : In t cl -> class_index (cl ++ cl') t = class_index cl t.
Proof.
  induction cl as [|c cl IH]; simpl; [contradiction|]. destruct (Z.eqb_spec c t); [reflexivity|].
  intros [->|H]; [congruence|]. now rewrite IH.
Qed.
Lemma classes_xcl lab : map (class_index (unique_labels lab)) lab = map (class_index (xcl lab)) lab.
Proof. apply map_ext_in. intros z Hz. unfold xcl. symmetry. apply class_index_app. now apply unique_In. Qed.
Lemma xcl_unknown lab : nth (length (unique_labels lab)) (xcl lab) 0%Z = (last (unique_labels lab) 0 + 1)%Z.
Proof. unfold xcl. rewrite app_nth2, Nat.sub_diag by lia. reflexivity. Qed.

Section Score.
  Context {V : Type} {N : Num V} {toX : V -> xr} (CL : CmpLaws V N toX).
  Variable argpart : list V -> list nat -> list nat.
  Hypothesis AP : argpart_ok argpart.
  Variable rp : nat -> list nat -> list nat.
  Hypothesis RP : forall i l, Permutation (rp i l) l.
  Variable sh : nat -> nat -> list nat -> list nat.
  Hypothesis SH : forall i j l, Permutation (sh i j l) l.

  Lemma combine_fold {A B C} (f : C -> A -> B -> C) (g : A -> B) l : forall s,
    fold_left (fun st ip => f st (fst ip) (snd ip)) (combine l (map g l)) s = fold_left (fun st i => f st i (g i)) l s.
  Proof. induction l as [|a l IH]; intros s; simpl; auto. Qed.

  (** the predictions of one object (class indices), as a total function *)
  Definition pt (S : smat V) (lab : list Z) (ks : list nat) (i : nat) : list nat :=
    match sp_point argpart rp sh S (map Z.of_nat ks) (length (xcl lab)) (map (class_index (xcl lab)) lab) i with
    | Ok l => l | Raise _ => repeat 0 (length ks) end.

  Lemma pt_spec (S : smat V) (lab : list Z) (ks : list nat) i : scol S = length lab -> clean_row S i -> sp_cols S i <> [] ->
    sp_point argpart rp sh S (map Z.of_nat ks) (length (xcl lab)) (map (class_index (xcl lab)) lab) i = Ok (pt S lab ks i) /\
    length (pt S lab ks i) = length ks /\
    exists w t, linked S i w /\ (forall x, linked S i x -> nlt (sval S i w) (sval S i x) = false) /\
      Permutation (w :: t) (sp_cols S i) /\
      (forall k, In k ks -> top_list (sval S i) (fun x => linked S i x /\ x <> w) (Nat.min k (length (sp_cols S i) - 1)) (firstn k t)) /\
      pt S lab ks i = map (fun nn => knn_vote (length (xcl lab)) (take 0 (map (class_index (xcl lab)) lab) nn))
                       (knn_voters (sp_row S i) (sh i) 0 (map Z.of_nat ks) t).
  Proof.
    intros HC Hc Hne.
    assert (Hpos : 0 < length (sp_cols S i)). { destruct (sp_cols S i); [congruence|simpl; lia]. }
    destruct (ranked_spec CL argpart AP S i (rp i (seq 0 (length (sp_cols S i)))) ks Hc Hpos (RP _ _))
      as (w & t & Er & Pt & Hw & Ht & _).
    unfold pt, sp_point. rewrite Er. cbn [bind tl]. split; [reflexivity|]. split.
    - rewrite map_length, voters_length, map_length. reflexivity.
    - exists w, t. split; [apply stored_linked, (Permutation_in _ Pt); now left|]. auto.
  Qed.

  Lemma pt_range (S : smat V) (lab : list Z) (ks : list nat) i j : scol S = length lab -> clean_row S i -> sp_cols S i <> [] ->
    j < length ks -> nth j (pt S lab ks i) 0 < length (xcl lab).
  Proof.
    intros HC Hc Hne Hj. destruct (pt_spec S lab ks i HC Hc Hne) as (_ & L & w & t & _ & _ & Pt & _ & E).
    assert (Hin : In (nth j (pt S lab ks i) 0) (pt S lab ks i)) by (apply nth_In; lia).
    rewrite E in Hin at 2. apply in_map_iff in Hin. destruct Hin as (nn & Env & Hnn). rewrite <- Env.
    destruct (take 0 (map (class_index (xcl lab)) lab) nn) as [|c cs] eqn:Et.
    - rewrite vote_nil. rewrite xcl_length. lia.
    - assert (Hv : In (knn_vote (length (xcl lab)) (c :: cs)) (c :: cs)) by (apply vote_in; discriminate).
      rewrite <- Et in Hv at 2. unfold take in Hv. apply in_map_iff in Hv. destruct Hv as (x & <- & Hx).
      assert (Hxl : x < length lab).
      { assert (Hxt : In x t) by (eapply voters_incl; [intros; apply SH|exact Hnn|exact Hx]).
        assert (Hxc : In x (sp_cols S i)) by (apply (Permutation_in _ Pt); now right).
        apply stored_linked in Hxc. destruct Hxc. lia. }
      rewrite nth_indep with (d' := class_index (xcl lab) 0%Z) by (now rewrite map_length).
      rewrite map_nth. apply class_index_lt. unfold xcl. apply in_app_iff. left. now apply unique_In, nth_In.
  Qed.

  Lemma existsb_false {A} (f : A -> bool) l : (forall x, In x l -> f x = false) -> existsb f l = false.
  Proof. induction l as [|a l IH]; intros H; simpl; [reflexivity|]. rewrite H by now left. apply IH. intros x Hx. apply H. now right. Qed.

  Lemma score_sparse_run (S : smat V) (lab : list Z) (ks : list nat) metric test : srow S = length lab -> scol S = length lab ->
    lab <> [] -> valid_metric metric = true ->
    let points := match test with None => seq 0 (length lab) | Some t => t end in
    (forall i, In i points -> i < length lab /\ clean_row S i /\ sp_cols S i <> []) ->
    score_sparse argpart rp sh S lab (map Z.of_nat ks) metric test None =
      Ok (fold_left (fun st i => zip_upd (length points) i (nth i (map (class_index (xcl lab)) lab) 0) (pt S lab ks i) st)
            points (map (fun _ => kst0) (map Z.of_nat ks))).
  Proof.
    intros HR HC Hl HM points Hp. unfold score_sparse.
    unfold check_distance_matrix_shape, check_distance_matrix_shape_fits_labels, check_is_nD_array, guard, dim0, dim1, size_of, shape_of.
    cbn [length nth fold_right]. rewrite HR, HC, Nat.mul_1_r, !Nat.eqb_refl. cbn [negb bind Nat.eqb].
    replace (check_valid_metric_parameter metric) with (Ok tt).
    2:{ unfold check_valid_metric_parameter, guard. unfold valid_metric in HM. destruct (is_dist metric), (is_sim metric); auto; discriminate. }
    cbn [bind].
    replace (length (unique_labels lab) =? 0) with false.
    2:{ symmetry. apply Nat.eqb_neq. intros E. destruct lab as [|z lab]; [congruence|].
        assert (In z (unique_labels (z :: lab))) by (apply unique_In; now left).
        destruct (unique_labels (z :: lab)); [contradiction|discriminate]. }
    cbn [bind]. rewrite classes_xcl. rewrite <- xcl_length.
    assert (Ep : match test with None => seq 0 (length lab) | Some t => t end = points) by reflexivity.
    rewrite Ep. rewrite existsb_false. 2:{ intros x Hx. apply Nat.leb_gt. now apply Hp. }
    cbn [bind].
    rewrite (mapM_ok_map _ (pt S lab ks)). 2:{ intros i Hi. destruct (Hp i Hi) as (_ & Hc & Hne). now apply pt_spec. }
    cbn [bind]. f_equal.
    replace (match test with None => length lab | Some t => length t end) with (length points).
    2:{ unfold points. destruct test; [reflexivity|apply seq_length]. }
    apply (combine_fold (fun st i p => zip_upd (length points) i (nth i (map (class_index (xcl lab)) lab) 0) p st)).
  Qed.

  (** corr flag of a point, independent of which points are evaluated *)
  Lemma score_sparse_full (S : smat V) (lab : list Z) (ks : list nat) metric test : srow S = length lab -> scol S = length lab ->
    lab <> [] -> valid_metric metric = true ->
    let points := match test with None => seq 0 (length lab) | Some t => t end in
    (forall i, i < length lab -> clean_row S i /\ sp_cols S i <> []) ->
    (forall i, In i points -> i < length lab) ->
    exists out, score_sparse argpart rp sh S lab (map Z.of_nat ks) metric test None = Ok out /\ length out = length ks /\
      forall j s, nth_error out j = Some s ->
        describes points (fun i => nth i lab 0%Z) (xcl lab) (fun i => nth (nth j (pt S lab ks i) 0) (xcl lab) 0%Z) (k_corr s) (k_cmat s) /\
        k_acc s = acc_rep (length points) (cnt (fun i => (nth i lab 0 =? nth (nth j (pt S lab ks i) 0%nat) (xcl lab) 0)%Z) points).
  Proof.
    intros HR HC Hl HM points Hp Hpt. eexists. split.
    { apply score_sparse_run; auto. }
    fold points.
    set (preds := fun i => if i <? length lab then pt S lab ks i else repeat 0 (length ks)).
    assert (Eq : forall i, In i points -> preds i = pt S lab ks i).
    { intros i Hi. unfold preds. specialize (Hpt i Hi). now apply Nat.ltb_lt in Hpt as ->. }
    rewrite (fold_left_ext_in _ (fun st i => zip_upd (length points) i (nth i (map (class_index (xcl lab)) lab) 0) (preds i) st)).
    2:{ intros st i Hi. now rewrite Eq. }
    destruct (fold_describes_gen (V:=V) (length points) points lab (xcl lab) preds (map Z.of_nat ks)) as (L & D).
    - apply xcl_NoDup.
    - intros z Hz. apply in_app_iff. left. now apply unique_In.
    - intros i. rewrite map_length. unfold preds. destruct (Nat.ltb_spec i (length lab)) as [Hi|Hi]; [|apply repeat_length].
      destruct (Hp i Hi) as (A & B). now apply (pt_spec S lab ks i HC A B).
    - exact Hpt.
    - intros i j Hi Hj. rewrite map_length in Hj. rewrite Eq by exact Hi. destruct (Hp i (Hpt i Hi)) as (A & B). now apply pt_range.
    - rewrite map_length in L. split; [exact L|]. intros j s Hs. destruct (D j s Hs) as (D1 & D2). split.
      + destruct D1 as [d1 d2 d3 d4]. constructor.
        * intros i Hi. rewrite d1 by exact Hi. now rewrite Eq.
        * exact d2.
        * intros a b Ha Hb. rewrite d3 by assumption. f_equal. apply filter_ext_in. intros i Hi. now rewrite Eq.
        * intros i Hi. specialize (d4 i Hi). now rewrite Eq in d4.
      + rewrite D2. f_equal. apply cnt_ext. intros i Hi. now rewrite Eq.
  Qed.
End Score.
