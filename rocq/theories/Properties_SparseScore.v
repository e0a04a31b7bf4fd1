(** Properties C106-C110: knn_classification.py score on sparse matrices. *)
From Coq Require Import String.
From Coq Require Import ZArith List Arith Lia Bool Permutation.
From Verif Require Import Py Num Arr Sort S_Neighbors S_SNN S_KNN M_IO M_GK M_SNN M_KNN M_MPEmpiric M_SparseKNN.
From Verif Require Import S_SparseKNN P_Neighbors P_SNN P_KNN P_KNN2 P_KNN4 P_GK P_GK2 P_SparseKNN P_SparseKNN2 P_SparseKNN3 P_SparseKNN4 P_SparseScore P_SparseScore2.
From Verif Require Import Properties_KNN Properties_RPrec.
Import ListNotations.
Local Open Scope nat_scope.

(** all stored values of the matrix are finite *)
Definition finite_sims {V} {N : Num V} (S : smat V) (n : nat) : Prop :=
  forall i x, i < n -> linked S i x -> nisfin (sval S i x) = true.

(** ** C106: what the evaluation of a sparse similarity matrix reports *)
Theorem C106_leave_one_out :
  forall argpart, argpart_ok argpart ->
  forall rp, (forall i l, Permutation (rp i l) l) ->
  forall sh, (forall (i j : nat) l, Permutation (sh i j l) l) ->
  forall (S : smat f64) (lab : list Z) (ks : list nat) cl,
    let n := length lab in
    similarities S n -> finite_sims S n -> lab <> [] -> (forall k, In k ks -> 0 < k) -> distinct_sorted lab cl ->
    exists out pred unknown,
      score_sparse argpart rp sh S lab (map Z.of_nat ks) "similarity" None None = Ok out /\ length out = length ks /\
      ~ In unknown lab /\
      (forall j s, nth_error out j = Some s ->
         describes (seq 0 n) (fun i => nth i lab 0%Z) (cl ++ [unknown]) (pred j) (k_corr s) (k_cmat s) /\
         consistent (seq 0 n) (fun i => nth i lab 0%Z) (cl ++ [unknown]) (k_acc s) (k_corr s) (k_cmat s)) /\
      forall i j, i < n -> j < length ks ->
        exists nn, top_list (sval S i) (fun x => linked S i x /\ x <> i) (Nat.min (nth j ks 0) (n_linked S i)) nn /\
          (n_linked S i = 0 -> pred j i = unknown) /\
          (n_linked S i <> 0 -> elected (map (fun x => nth x lab 0%Z) nn) (pred j i)).
Proof.
  intros argpart AP rp RP sh SH S lab ks cl n [HR HC Hcl Hsf] Hfin Hl Hk Hds. rewrite (distinct_unique _ _ Hds).
  destruct (sparse_eval f64_cmp argpart AP rp RP sh SH S lab ks "similarity" None HR HC Hl eq_refl) as (out & E & L & D).
  { intros i Hi. split; [now apply Hcl|now apply self_cols, Hsf]. }
  { intros i Hi. apply in_seq in Hi. lia. }
  exists out, (pr argpart rp sh S lab ks), (last (unique_labels lab) 0 + 1)%Z.
  split; [exact E|]. split; [exact L|]. split; [now apply xcl_spec|]. split; [exact D|].
  intros i j Hi Hj.
  destruct (pt_vote f64_cmp argpart AP rp RP sh SH S lab ks i j HC (Hcl i Hi) (self_cols _ _ (Hsf i Hi)) (fun x => Hfin i x Hi) Hk Hj)
    as (w & nn & Lw & Mw & T & Vn & Ve).
  rewrite (self_first_max S i w (Hsf i Hi) Lw Mw) in T.
  rewrite (n_linked_cols S i (proj1 (Hsf i Hi))) in T. cbn [Nat.sub] in T. rewrite Nat.sub_0_r in T.
  exists nn. split; [exact T|]. pose proof (tl_len _ _ _ _ T) as Ln. split.
  - intros E0. apply Vn. destruct nn; [reflexivity|]. rewrite E0, Nat.min_0_r in Ln. discriminate.
  - intros E0. apply Ve. intros ->. simpl in Ln. specialize (Hk (nth j ks 0) (nth_In _ _ Hj)). lia.
Qed.

(** ** C107: a sparse matrix that stores all similarities gives the same
    evaluation as the dense matrix *)
Definition fully_stored {V} (S : smat V) : Prop := forall i x, i < srow S -> x < scol S -> linked S i x.

Lemma full_linked (S : smat f64) n i : similarities S n -> fully_stored S -> i < n -> n_linked S i = n - 1.
Proof.
  intros HS Hf Hi. pose proof (n_linked_cols S i) as H. rewrite <- (si_row _ _ HS) in Hi.
  assert (Hsi : linked S i i) by (apply Hf; rewrite ?(si_col _ _ HS), <- ?(si_row _ _ HS); auto).
  specialize (H Hsi). unfold sp_cols in H. rewrite filter_true, seq_length, (si_col _ _ HS) in H; [lia|].
  intros x Hx. apply in_seq in Hx. apply linked_b. apply Hf; [exact Hi|lia].
Qed.

Theorem C107_sparse_agrees_with_dense :
  forall argpart, argpart_ok argpart ->
  forall argsort, argsort_ok argsort ->
  forall rp rp', (forall i l, Permutation (rp i l) l) -> (forall i l, Permutation (rp' i l) l) ->
  forall sh sh', (forall (i j : nat) l, Permutation (sh i j l) l) -> (forall (i j : nat) l, Permutation (sh' i j l) l) ->
  forall (S : smat f64) (D : arr2 f64) (lab : list Z) (ks : list nat) cl,
    let n := length lab in
    similarities S n -> finite_sims S n -> fully_stored S -> 2 <= n -> (forall k, In k ks -> 0 < k) ->
    nrow D = n -> ncol D = n -> (forall i x, i < n -> x < n -> at2 D i x = sval S i x) ->
    (forall i x y, i < n -> x < n -> y < n -> x <> y ->
       nlt (sval S i x) (sval S i y) = true \/ nlt (sval S i y) (sval S i x) = true) ->
    distinct_sorted lab cl ->
    exists out out',
      score_sparse argpart rp sh S lab (map Z.of_nat ks) "similarity" None None = Ok out /\
      score argsort rp' sh' D lab (map Z.of_nat ks) "similarity" None None = Ok out' /\
      length out = length ks /\ length out' = length ks /\
      forall j s s', nth_error out j = Some s -> nth_error out' j = Some s' ->
        k_acc s = k_acc s' /\ (forall i, i < n -> k_corr s i = k_corr s' i) /\
        (forall a b, a < length cl -> b < length cl -> k_cmat s a b = k_cmat s' a b).
Proof.
  intros argpart AP argsort AS rp rp' RP RP' sh sh' SH SH' S D lab ks cl n HS Hfin Hfull Hn Hk HRD HCD HD Htie Hds.
  assert (Hl : lab <> []) by (intros ->; simpl in *; lia).
  destruct (C106_leave_one_out argpart AP rp RP sh SH S lab ks cl HS Hfin Hl Hk Hds)
    as (out & pred & u & E & L & Hu & Hd & Hv). fold n in Hd, Hv.
  destruct (C23_majority argsort AS rp' RP' sh' SH' D lab ks "similarity" cl ltac:(congruence) ltac:(now rewrite HRD) eq_refl Hds)
    as (out' & pred' & idx & E' & L' & Hd' & Hv'). rewrite HRD in Hd', Hv'.
  destruct (C20_leave_one_out argsort AS rp' RP' sh' SH' D lab (map Z.of_nat ks) "similarity" cl ltac:(congruence) ltac:(now rewrite HRD) eq_refl Hds)
    as (out'' & E'' & _ & Hc'). rewrite HRD in Hc'. assert (out'' = out') by congruence. subst out''.
  exists out, out'. split; [exact E|]. split; [exact E'|]. split; [exact L|]. split; [exact L'|].
  pose proof HS as [HR HC Hcl Hsf].
  assert (Eq : forall i j, i < n -> j < length ks -> pred j i = pred' j i).
  { intros i j Hi Hj. destruct (Hv i j Hi Hj) as (nn & T & _ & Ve).
    rewrite (full_linked S n i HS Hfull Hi) in T, Ve. specialize (Ve ltac:(lia)).
    destruct (Hv' i Hi) as ([R1 R2 R3] & El & Hne).
    set (val := rank_value "similarity" D i) in *.
    assert (Hother : forall x, x < n -> x <> i -> val x = sval S i x).
    { intros x Hx Hxi. unfold val, rank_value. apply Nat.eqb_neq in Hxi. rewrite Hxi. now apply HD. }
    assert (Hself : nisfin (val i) = false /\ nisnan (val i) = false).
    { unfold val, rank_value. rewrite Nat.eqb_refl. split; reflexivity. }
    assert (Hlk : forall x, x < n -> linked S i x) by (intros x Hx; apply Hfull; lia).
    assert (Hof : forall x, x < n -> x <> i -> nisfin (val x) = true /\ nisnan (val x) = false).
    { intros x Hx Hxi. rewrite Hother by assumption. split; [apply Hfin; auto|]. now apply (Hcl i Hi x), Hlk. }
    assert (Hfn : has_finite_neighbor "similarity" D i).
    { split.
      - exists (if i =? 0 then 1 else 0). rewrite HCD. destruct (Nat.eqb_spec i 0) as [->|Hi0].
        + split; [lia|]. split; [lia|]. rewrite HD by lia. apply Hfin; [lia|]. apply Hlk. lia.
        + split; [lia|]. split; [lia|]. rewrite HD by lia. apply Hfin; [lia|]. apply Hlk. lia.
      - intros x Hx Hxi. rewrite HCD in Hx. left. rewrite HD by assumption. apply Hfin; [lia|]. now apply Hlk. }
    specialize (Hne Hfn Hk).
    set (k := nth j ks 0) in *. set (voters := filter (fun x => nisfin (val x)) (firstn k (idx i))).
    assert (El' : elected (map (fun x => nth x lab 0%Z) voters) (pred' j i)).
    { apply (El j Hj). intros j' Hj'. apply Hne. lia. }
    assert (Hpos : 0 < k) by (apply Hk; now apply nth_In).
    assert (Hidx : forall x, In x (idx i) <-> x < n).
    { intros x. rewrite R2. split; [tauto|]. intros Hx. split; [exact Hx|].
      destruct (Nat.eq_dec x i) as [->|Hxi]; [apply Hself|now apply Hof]. }
    assert (Pidx : Permutation (idx i) (seq 0 n)).
    { apply NoDup_Permutation; [exact R1|apply seq_NoDup|]. intros x. rewrite Hidx, in_seq. lia. }
    assert (Lidx : length (idx i) = n) by (rewrite (Permutation_length Pidx); apply seq_length).
    (* the object itself is ranked last *)
    assert (Hlast : forall a, a < n -> nth a (idx i) 0 = i -> a = n - 1).
    { intros a Ha Ea. destruct (Nat.eq_dec a (n - 1)) as [|Hne']; [assumption|]. exfalso.
      specialize (R3 a (n - 1) ltac:(lia) ltac:(lia)). unfold nearer in R3. cbn [is_sim String.eqb] in R3.
      change (is_sim "similarity") with true in R3. cbv iota in R3. rewrite Ea in R3.
      set (b := nth (n - 1) (idx i) 0) in *.
      assert (Hb : b < n) by (apply Hidx; unfold b; apply nth_In; lia).
      assert (Hbi : b <> i).
      { intros Eb. apply Hne'. apply (proj1 (NoDup_nth (idx i) 0) R1); [lia|lia|]. fold b. congruence. }
      destruct (Hof b Hb Hbi) as (F & _). unfold val in R3 at 1. unfold rank_value in R3. rewrite Nat.eqb_refl in R3.
      change (worst (V:=f64) "similarity") with (@nninf f64 Num_f64) in R3.
      unfold val in F. rewrite (ninf_lt_fin f64_cmp) in R3; [discriminate|exact F]. }
    assert (T' : top_list (sval S i) (fun x => linked S i x /\ x <> i) (Nat.min k (n - 1)) voters).
    { assert (Hvin : forall x, In x voters <-> In x (firstn k (idx i)) /\ x <> i).
      { intros x. unfold voters. rewrite filter_In. split; intros (A & B); (split; [exact A|]).
        - intros ->. destruct Hself. congruence.
        - apply Hof; [|exact B]. apply Hidx. rewrite <- (firstn_skipn k (idx i)). apply in_app_iff. now left. }
      assert (Hvl : voters = firstn (Nat.min k (n - 1)) (idx i)).
      { unfold voters. assert (Hsplit : idx i = firstn (n - 1) (idx i) ++ [nth (n - 1) (idx i) 0]).
        { apply nth_ext with (d := 0) (d' := 0).
          - rewrite app_length, firstn_length. simpl. lia.
          - intros a Ha. destruct (Nat.lt_ge_cases a (n - 1)) as [Hlt|Hge].
            + rewrite app_nth1, nth_firstn_lt by (rewrite ?firstn_length; lia). reflexivity.
            + replace a with (n - 1) by lia. rewrite app_nth2; rewrite firstn_length, Lidx, Nat.min_l by lia; [|lia].
              rewrite Nat.sub_diag. reflexivity. }
        assert (Hlast' : nth (n - 1) (idx i) 0 = i).
        { assert (Hin : In i (idx i)) by now apply Hidx. apply (In_nth _ _ 0) in Hin. destruct Hin as (a & Ha & Ea).
          rewrite Lidx in Ha. now rewrite <- (Hlast a Ha Ea). }
        assert (Hpre : forall m, m <= n - 1 -> filter (fun x => nisfin (val x)) (firstn m (idx i)) = firstn m (idx i)).
        { intros m Hm. apply filter_true. intros x Hx. apply Hof.
          - apply Hidx. rewrite <- (firstn_skipn m (idx i)). apply in_app_iff. now left.
          - intros ->. apply (In_nth _ _ 0) in Hx. destruct Hx as (a & Ha & Ea). rewrite firstn_length in Ha.
            rewrite nth_firstn_lt in Ea by lia. specialize (Hlast a ltac:(lia) Ea). lia. }
        destruct (Nat.le_gt_cases k (n - 1)) as [Hkn|Hkn].
        - rewrite Nat.min_l by exact Hkn. now apply Hpre.
        - rewrite Nat.min_r by lia. rewrite firstn_all2 by lia. rewrite Hsplit at 1. rewrite filter_app, Hpre, Hlast' by lia.
          cbn [filter]. destruct Hself as (-> & _). apply app_nil_r. }
      assert (Hsorted : forall a b, a < b -> b < n - 1 -> nlt (sval S i (nth a (idx i) 0)) (sval S i (nth b (idx i) 0)) = false).
      { intros a b Hab Hb. specialize (R3 a b Hab ltac:(lia)). unfold nearer in R3. change (is_sim "similarity") with true in R3.
        cbv iota in R3. rewrite !Hother in R3; auto.
        - apply Hidx, nth_In. lia. - intros Eb. specialize (Hlast b ltac:(lia) Eb). lia.
        - apply Hidx, nth_In. lia. - intros Eb. specialize (Hlast a ltac:(lia) Eb). lia. }
      assert (Hpos_of : forall x, linked S i x -> x <> i -> exists a, a < n - 1 /\ nth a (idx i) 0 = x).
      { intros x (Hx & _) Hxi. rewrite HC in Hx. assert (Hin : In x (idx i)) by now apply Hidx.
        apply (In_nth _ _ 0) in Hin. destruct Hin as (a & Ha & Ea). exists a. split; [|exact Ea]. rewrite Lidx in Ha.
        destruct (Nat.eq_dec a (n - 1)) as [->|]; [|lia]. exfalso. apply Hxi. rewrite <- Ea.
        assert (Hin : In i (idx i)) by now apply Hidx. apply (In_nth _ _ 0) in Hin. destruct Hin as (b & Hb & Eb).
        rewrite Lidx in Hb. now rewrite <- (Hlast b Hb Eb). }
      constructor.
      - rewrite Hvl, firstn_length. lia.
      - rewrite Hvl. now apply NoDup_firstn.
      - intros x Hx. apply Hvin in Hx. destruct Hx as (Hx & Hxi). split; [|exact Hxi]. apply Hlk, Hidx.
        rewrite <- (firstn_skipn k (idx i)). apply in_app_iff. now left.
      - intros x y (Hx & Hxi) Hnx Hy. destruct (Hpos_of x Hx Hxi) as (a & Ha & Ea). rewrite Hvl in Hnx, Hy.
        apply (In_nth _ _ 0) in Hy. destruct Hy as (b & Hb & Eb). rewrite firstn_length in Hb. rewrite nth_firstn_lt in Eb by lia.
        subst x y. apply Hsorted; [|exact Ha].
        destruct (Nat.le_gt_cases (Nat.min k (n - 1)) a) as [Hm|Hm]; [lia|]. exfalso. apply Hnx.
        rewrite <- (nth_firstn_lt (Nat.min k (n - 1)) (idx i) a 0 Hm). apply nth_In. rewrite firstn_length. lia.
      - intros h x Eh (Hx & Hxi). destruct (Hpos_of x Hx Hxi) as (a & Ha & Ea). subst x.
        assert (Eh' : nth 0 (idx i) 0 = h).
        { apply (nth_error_nth _ _ 0) in Eh. rewrite Hvl, nth_firstn_lt in Eh by lia. exact Eh. }
        subst h. destruct a as [|a]; [apply (nlt_irrefl f64_cmp)|]. apply Hsorted; lia. }
    assert (Hdist : forall x y, (linked S i x /\ x <> i) -> (linked S i y /\ y <> i) -> x <> y ->
      nlt (sval S i x) (sval S i y) = true \/ nlt (sval S i y) (sval S i x) = true).
    { intros x y ((Hx & _) & _) ((Hy & _) & _) Hxy. apply Htie; try lia; congruence. }
    pose proof (top_list_unique (sval S i) (fun x => linked S i x /\ x <> i) _ nn voters Hdist T T') as HP.
    apply (elected_unique _ _ _ _ Ve El'); [now apply Permutation_map|].
    assert (Hh : nth_error nn 0 = nth_error voters 0).
    { pose proof (tl_len _ _ _ _ T) as L1. pose proof (tl_len _ _ _ _ T') as L2.
      destruct nn as [|h nn]; [simpl in L1; lia|]. destruct voters as [|h' v'] eqn:Ev; [simpl in L2; lia|]. simpl. f_equal.
      destruct (Nat.eq_dec h h') as [|Hne']; [assumption|]. exfalso.
      pose proof (tl_in _ _ _ _ T h (or_introl eq_refl)) as Ch. pose proof (tl_in _ _ _ _ T' h' (or_introl eq_refl)) as Ch'.
      pose proof (tl_head _ _ _ _ T h h' eq_refl Ch') as F1. pose proof (tl_head _ _ _ _ T' h' h eq_refl Ch) as F2.
      destruct (Hdist h h' Ch Ch' Hne') as [F|F]; congruence. }
    rewrite !nth_error_map, Hh. reflexivity. }
  intros j s s' Hs Hs'.
  assert (Hj : j < length ks). { rewrite <- L. apply nth_error_Some. congruence. }
  destruct (Hd j s Hs) as ([D1 D2 D3 D4] & [C1 C2 C3 C4 C5]). destruct (Hd' j s' Hs') as [D1' D2' D3' D4'].
  assert (Hcorr : forall i, In i (seq 0 n) -> k_corr s i = k_corr s' i).
  { intros i Hi. rewrite D1, D1' by exact Hi. apply in_seq in Hi. rewrite Eq by lia. reflexivity. }
  destruct (Hc' s' (nth_error_In _ _ Hs')) as [_ _ _ _ A'].
  split; [|split].
  - rewrite C5, A'. f_equal. f_equal. now apply filter_ext_in.
  - intros i Hi. apply Hcorr, in_seq. lia.
  - intros a b Ha Hb. rewrite D3, D3' by (rewrite ?app_length; simpl; lia). f_equal. apply filter_ext_in. intros i Hi.
    apply in_seq in Hi. rewrite Eq by lia. now rewrite !app_nth1.
Qed.

(** ** C108: DEFECT: [metric] is not looked at: sparse distances are treated as
    similarities *)
Theorem C108_metric_ignored :
  forall {V} {N : Num V} argpart rp sh (S : smat V) lab ks test sample,
    score_sparse argpart rp sh S lab ks "distance" test sample =
    score_sparse argpart rp sh S lab ks "similarity" test sample.
Proof. reflexivity. Qed.

(** a matrix of positive distances between different objects: the farthest
    object is left out and the next k farthest ones vote *)
Theorem C108_farthest_objects_vote :
  forall argpart, argpart_ok argpart ->
  forall rp, (forall i l, Permutation (rp i l) l) ->
  forall sh, (forall (i j : nat) l, Permutation (sh i j l) l) ->
  forall (S : smat f64) (lab : list Z) (ks : list nat) cl,
    let n := length lab in
    srow S = n -> scol S = n -> finite_sims S n -> lab <> [] ->
    (forall i, i < n -> ~ linked S i i /\ exists x, linked S i x) ->
    (forall i x, i < n -> linked S i x -> nlt n0 (sval S i x) = true) ->
    (forall k, In k ks -> 0 < k) -> distinct_sorted lab cl ->
    exists out pred unknown,
      score_sparse argpart rp sh S lab (map Z.of_nat ks) "distance" None None = Ok out /\ length out = length ks /\
      ~ In unknown lab /\
      (forall j s, nth_error out j = Some s ->
         describes (seq 0 n) (fun i => nth i lab 0%Z) (cl ++ [unknown]) (pred j) (k_corr s) (k_cmat s)) /\
      forall i j, i < n -> j < length ks ->
        exists w nn, linked S i w /\ (forall x, linked S i x -> nlt (sval S i w) (sval S i x) = false) /\
          top_list (sval S i) (fun x => linked S i x /\ x <> w) (Nat.min (nth j ks 0) (n_linked S i - 1)) nn /\
          (nn = [] -> pred j i = unknown) /\
          (nn <> [] -> elected (map (fun x => nth x lab 0%Z) nn) (pred j i)).
Proof.
  intros argpart AP rp RP sh SH S lab ks cl n HR HC Hfin Hl Hrow Hpos Hk Hds. rewrite (distinct_unique _ _ Hds).
  assert (Hcl : forall i, i < n -> clean_row S i /\ sp_cols S i <> []).
  { intros i Hi. split.
    - intros x Hx. pose proof (Hpos i x Hi Hx) as P. split; [now apply (nlt_nan_r f64_cmp) in P|].
      unfold nonzero. destruct (neq (sval S i x) n0) eqn:E; [|reflexivity]. exfalso.
      rewrite (nlt_neq_r f64_cmp _ _ _ E), (nlt_irrefl f64_cmp) in P. discriminate.
    - destruct (Hrow i Hi) as (_ & x & Hx). apply stored_linked in Hx. intros E. rewrite E in Hx. contradiction. }
  destruct (sparse_eval f64_cmp argpart AP rp RP sh SH S lab ks "distance" None HR HC Hl eq_refl Hcl) as (out & E & L & D).
  { intros i Hi. apply in_seq in Hi. lia. }
  exists out, (pr argpart rp sh S lab ks), (last (unique_labels lab) 0 + 1)%Z.
  split; [exact E|]. split; [exact L|]. split; [now apply xcl_spec|]. split; [intros j s Hs; now apply D|].
  intros i j Hi Hj. destruct (Hcl i Hi) as (Hc & Hne).
  destruct (pt_vote f64_cmp argpart AP rp RP sh SH S lab ks i j HC Hc Hne (fun x => Hfin i x Hi) Hk Hj)
    as (w & nn & Lw & Mw & T & Vn & Ve).
  exists w, nn. split; [exact Lw|]. split; [exact Mw|].
  replace (n_linked S i) with (length (sp_cols S i)); [split; [exact T|now split]|].
  unfold n_linked, sp_cols. f_equal. apply filter_ext_in. intros x Hx. apply in_seq in Hx.
  destruct (is_stored S i x) eqn:Es; [|now rewrite andb_false_r]. rewrite andb_true_r. symmetry. apply negb_true_iff, Nat.eqb_neq.
  intros ->. apply (proj1 (Hrow i Hi)). apply linked_b. split; [lia|exact Es].
Qed.

(** ** C109: DEFECT: held-out objects take part in the vote *)
Theorem C109_test_set_is_leave_one_out :
  forall argpart, argpart_ok argpart ->
  forall rp, (forall i l, Permutation (rp i l) l) ->
  forall sh, (forall (i j : nat) l, Permutation (sh i j l) l) ->
  forall (S : smat f64) (lab : list Z) (ks : list nat) (t : list nat) metric,
    let n := length lab in
    similarities S n -> lab <> [] -> valid_metric metric = true ->
    (forall x, In x t -> x < n) ->
    exists out out',
      score_sparse argpart rp sh S lab (map Z.of_nat ks) metric None None = Ok out /\
      score_sparse argpart rp sh S lab (map Z.of_nat ks) metric (Some t) None = Ok out' /\
      length out = length ks /\ length out' = length ks /\
      forall j s s', nth_error out j = Some s -> nth_error out' j = Some s' ->
        (forall i, In i t -> k_corr s' i = k_corr s i) /\
        (forall i, ~ In i t -> k_corr s' i = false).
Proof.
  intros argpart AP rp RP sh SH S lab ks t metric n [HR HC Hcl Hsf] Hl Hv Ht.
  assert (Hc : forall i, i < n -> clean_row S i /\ sp_cols S i <> []).
  { intros i Hi. split; [now apply Hcl|now apply self_cols, Hsf]. }
  destruct (sparse_eval f64_cmp argpart AP rp RP sh SH S lab ks metric None HR HC Hl Hv Hc) as (out & E & L & D).
  { intros i Hi. apply in_seq in Hi. lia. }
  destruct (sparse_eval f64_cmp argpart AP rp RP sh SH S lab ks metric (Some t) HR HC Hl Hv Hc Ht) as (out' & E' & L' & D').
  exists out, out'. split; [exact E|]. split; [exact E'|]. split; [exact L|]. split; [exact L'|].
  intros j s s' Hs Hs'. destruct (D j s Hs) as ([A1 A2 _ _] & _). destruct (D' j s' Hs') as ([B1 B2 _ _] & _). split; [|exact B2].
  intros i Hi. rewrite B1 by exact Hi. symmetry. apply A1, in_seq. specialize (Ht i Hi). unfold n in Ht. lia.
Qed.

(** if the nearest object of every held-out object is held out too and has the
    same label, the accuracy for k = 1 is that of a perfect classifier, even if
    no training object has such a label *)
Theorem C109_perfect_without_training :
  forall argpart, argpart_ok argpart ->
  forall rp, (forall i l, Permutation (rp i l) l) ->
  forall sh, (forall (i j : nat) l, Permutation (sh i j l) l) ->
  forall (S : smat f64) (lab : list Z) (t : list nat),
    let n := length lab in
    similarities S n -> finite_sims S n -> lab <> [] -> (forall x, In x t -> x < n) ->
    (forall i, In i t -> exists y, In y t /\ y <> i /\ nth y lab 0%Z = nth i lab 0%Z /\ linked S i y /\
       forall x, linked S i x -> x <> i -> x <> y -> nlt (sval S i x) (sval S i y) = true) ->
    exists s, score_sparse argpart rp sh S lab [1%Z] "similarity" (Some t) None = Ok [s] /\
      (forall i, In i t -> k_corr s i = true) /\
      k_acc s = Nat.iter (length t) (fun a => nadd a (ndiv n1 (nofnat (length t)))) n0.
Proof.
  intros argpart AP rp RP sh SH S lab t n [HR HC Hcl Hsf] Hfin Hl Ht Hy.
  assert (Hc : forall i, i < n -> clean_row S i /\ sp_cols S i <> []).
  { intros i Hi. split; [now apply Hcl|now apply self_cols, Hsf]. }
  destruct (sparse_eval f64_cmp argpart AP rp RP sh SH S lab [1] "similarity" (Some t) HR HC Hl eq_refl Hc Ht) as (out & E & L & D).
  destruct out as [|s [|? ?]]; try discriminate. exists s. split; [exact E|].
  destruct (D 0 s eq_refl) as (D1 & D2).
  assert (Hcorr : forall i, In i t -> k_corr s i = true).
  { intros i Hi. rewrite (de_corr _ _ _ _ _ _ D1) by exact Hi. specialize (Ht i Hi).
    destruct (pt_vote f64_cmp argpart AP rp RP sh SH S lab [1] i 0 HC (Hcl i Ht) (self_cols _ _ (Hsf i Ht)) (fun x => Hfin i x Ht))
      as (w & nn & Lw & Mw & T & _ & Ve); [intros k [<-|[]]; lia|simpl; lia|].
    rewrite (self_first_max S i w (Hsf i Ht) Lw Mw) in T.
    rewrite (n_linked_cols S i (proj1 (Hsf i Ht))) in T. cbn [Nat.sub nth] in T. rewrite Nat.sub_0_r in T.
    destruct (Hy i Hi) as (y & Hyt & Hyi & Hlab & Hly & Hbest).
    assert (Hnl : 0 < n_linked S i).
    { unfold n_linked. assert (Hin : In y (filter (fun x => negb (x =? i) && is_stored S i x) (seq 0 (scol S)))).
      { apply linked_b in Hly. apply filter_In. rewrite in_seq. split; [lia|]. apply Nat.eqb_neq in Hyi. rewrite Hyi. now destruct Hly. }
      destruct (filter _ _); [contradiction|simpl; lia]. }
    assert (En : nn = [y]).
    { pose proof (tl_len _ _ _ _ T) as Ln. rewrite Nat.min_l in Ln by lia. destruct nn as [|h [|? ?]]; try discriminate. f_equal.
      destruct (Nat.eq_dec h y) as [|Hne]; [assumption|]. exfalso.
      destruct (tl_in _ _ _ _ T h (or_introl eq_refl)) as (Hh & Hhi).
      pose proof (tl_head _ _ _ _ T h y eq_refl (conj Hly Hyi)) as F. rewrite (Hbest h Hh Hhi Hne) in F. discriminate. }
    rewrite En in Ve. cbn [map] in Ve. specialize (Ve ltac:(discriminate)). rewrite Hlab in Ve.
    apply Z.eqb_eq. destruct Ve as [P|(_ & E0)]; [|cbn in E0; congruence].
    destruct (Z.eq_dec (nth i lab 0%Z) (pr argpart rp sh S lab [1] 0 i)) as [|Hne]; [assumption|]. exfalso.
    specialize (P (nth i lab 0%Z) Hne). unfold zvotes in P. cbn [count_occ] in P.
    destruct (Z.eq_dec (nth i lab 0%Z) (nth i lab 0%Z)); [|congruence]. destruct (Z.eq_dec _ _); [contradiction|lia]. }
  split; [exact Hcorr|]. rewrite (co_acc _ _ _ _ _ _ D2). f_equal. f_equal. now apply filter_true.
Qed.

(** ** C110: sparse input that is refused *)
Theorem C110_sample_refused :
  forall {V} {N : Num V} argpart rp sh (S : smat V) lab ks metric test sample,
    score_sparse argpart rp sh S lab ks metric test (Some sample) = Raise TypeError.
Proof. reflexivity. Qed.

Theorem C110_empty_row_raises :
  forall argpart, argpart_ok argpart ->
  forall rp, (forall i l, Permutation (rp i l) l) ->
  forall sh, (forall (i j : nat) l, Permutation (sh i j l) l) ->
  forall (S : smat f64) (lab : list Z) (ks : list nat) metric i,
    let n := length lab in
    srow S = n -> scol S = n -> (forall i, i < n -> clean_row S i) -> valid_metric metric = true ->
    i < n -> (forall x, ~ linked S i x) ->
    score_sparse argpart rp sh S lab (map Z.of_nat ks) metric None None = Raise ValueError.
Proof.
  intros argpart AP rp RP sh SH S lab ks metric i n HR HC Hcl Hv Hi Hx.
  assert (Hl : lab <> []) by (intros ->; simpl in n; unfold n in Hi; lia).
  assert (Hr : forall k, k < n -> forall e, sp_ranked argpart S k (rp k (seq 0 (length (sp_cols S k)))) (map Z.of_nat ks) = Raise e -> e = ValueError).
  { intros k Hk e Ee. destruct (sp_cols S k) as [|c cs] eqn:Ec.
    - rewrite ranked_empty in Ee; [congruence|exact Ec|]. apply Permutation_nil. symmetry. apply RP.
    - rewrite <- Ec in Ee. destruct (ranked_spec f64_cmp argpart AP S k (rp k (seq 0 (length (sp_cols S k)))) ks (Hcl k Hk)) as (w & t & Er & _).
      + rewrite Ec. simpl. lia. + apply RP. + congruence. }
  apply (score_sparse_fails argpart rp sh S lab ks metric ValueError i HR HC Hl Hv Hi).
  - assert (Ec : sp_cols S i = []).
    { destruct (sp_cols S i) as [|c cs] eqn:Ec; [reflexivity|]. exfalso. apply (Hx c). apply stored_linked. rewrite Ec. now left. }
    unfold sp_point. rewrite ranked_empty; [reflexivity|exact Ec|]. rewrite Ec. apply Permutation_nil. symmetry. apply RP.
  - intros k Hk. unfold sp_point. destruct (sp_ranked _ _ _ _ _) as [l|e] eqn:Ee; [discriminate|]. intros _. cbn [bind].
    now rewrite (Hr k Hk e Ee).
Qed.

Theorem C110_stored_zero_raises :
  forall argpart, argpart_ok argpart ->
  forall rp, (forall i l, Permutation (rp i l) l) ->
  forall sh, (forall (i j : nat) l, Permutation (sh i j l) l) ->
  forall (S : smat f64) (lab : list Z) (ks : list nat) metric i x,
    let n := length lab in
    srow S = n -> scol S = n -> valid_metric metric = true ->
    (forall i y, i < n -> linked S i y -> nisnan (sval S i y) = false) ->
    (forall i, i < n -> exists y, linked S i y) ->
    i < n -> linked S i x -> neq (sval S i x) n0 = true ->
    score_sparse argpart rp sh S lab (map Z.of_nat ks) metric None None = Raise IndexError.
Proof.
  intros argpart AP rp RP sh SH S lab ks metric i x n HR HC Hv Hnn Hne Hi Hx Hz.
  assert (Hl : lab <> []) by (intros ->; simpl in n; unfold n in Hi; lia).
  apply (score_sparse_fails argpart rp sh S lab ks metric IndexError i HR HC Hl Hv Hi).
  - unfold sp_point. rewrite (ranked_zero argpart AP S i _ _ x (fun y => Hnn i y Hi) Hx); [reflexivity| |apply RP].
    unfold nonzero. now rewrite Hz.
  - intros k Hk. unfold sp_point. destruct (sp_ranked _ _ _ _ _) as [l|e] eqn:Ee; [discriminate|]. intros _. cbn [bind]. f_equal.
    destruct (existsb (fun y => negb (nonzero (sval S k y))) (sp_cols S k)) eqn:Eb.
    + apply existsb_exists in Eb. destruct Eb as (y & Hy & Ny). apply negb_true_iff in Ny. apply stored_linked in Hy.
      rewrite (ranked_zero argpart AP S k _ _ y (fun z => Hnn k z Hk) Hy Ny) in Ee; [congruence|apply RP].
    + exfalso.
      assert (Hcl : clean_row S k).
      { intros y Hy. split; [now apply Hnn|]. destruct (nonzero (sval S k y)) eqn:En; [reflexivity|]. exfalso.
        assert (existsb (fun y => negb (nonzero (sval S k y))) (sp_cols S k) = true); [|congruence].
        apply existsb_exists. exists y. split; [now apply stored_linked|now rewrite En]. }
      destruct (Hne k Hk) as (y & Hy). apply stored_linked in Hy.
      destruct (ranked_spec f64_cmp argpart AP S k (rp k (seq 0 (length (sp_cols S k)))) ks Hcl) as (w & t & Er & _).
      * destruct (sp_cols S k); [contradiction|simpl; lia]. * apply RP. * congruence.
Qed.

(** ** Concrete cases *)
Definition fins_b (S : smat f64) (n : nat) : bool :=
  forallb (fun i => forallb (fun x => negb (is_stored S i x) || nisfin (sval S i x)) (seq 0 (scol S))) (seq 0 n).
Lemma fins_b_ok S n : fins_b S n = true -> finite_sims S n.
Proof.
  unfold fins_b. rewrite forallb_forall. intros H i x Hi Hx. apply linked_b in Hx. destruct Hx as (Hx & Hs).
  specialize (H i ltac:(apply in_seq; lia)). rewrite forallb_forall in H. specialize (H x ltac:(apply in_seq; lia)).
  now rewrite Hs in H.
Qed.

(** object 4 has no stored similarity to another object: it is classified as unknown *)
Definition exU : smat f64 := sp_of [[9;3;2;1;0]; [3;9;1;2;0]; [2;1;9;4;0]; [0;2;4;9;0]; [0;0;0;0;9]]%Z.
Definition exUlab : list Z := [5;5;6;6;6]%Z.
Example C106_case : similarities exU (length exUlab) /\ finite_sims exU (length exUlab) /\ distinct_sorted exUlab [5;6]%Z /\
  n_linked exU 4 = 0 /\
  exists s s', score_sparse ref_argpart idp idp2 exU exUlab [1;3]%Z "similarity" None None = Ok [s; s'] /\
    map (k_corr s) [0;1;2;3;4] = [true;true;true;true;false] /\
    map (fun a => map (k_cmat s a) [0;1;2]) [0;1;2] = [[2;0;0]; [0;2;1]; [0;0;0]] /\
    map (k_corr s') [0;1;2;3;4] = [false;false;false;true;false].
Proof.
  split; [apply sims_b_ok; vm_compute; reflexivity|]. split; [apply fins_b_ok; vm_compute; reflexivity|].
  split. { split; [repeat constructor|]. intros c. cbn. intuition. }
  split; [vm_compute; reflexivity|]. eexists. eexists. split; [reflexivity|]. repeat split; vm_compute; reflexivity.
Qed.

Definition exF : smat f64 := sp_of [[9;3;2;1]; [3;9;1;2]; [2;1;9;4]; [3;2;4;9]]%Z.
Example C107_case : similarities exF 4 /\ finite_sims exF 4 /\ fully_stored exF /\
  forall i x y, i < 4 -> x < 4 -> y < 4 -> x <> y ->
       nlt (sval exF i x) (sval exF i y) = true \/ nlt (sval exF i y) (sval exF i x) = true.
Proof.
  split; [apply sims_b_ok; vm_compute; reflexivity|]. split; [apply fins_b_ok; vm_compute; reflexivity|]. split.
  - assert (B : forallb (fun i => forallb (is_stored exF i) (seq 0 4)) (seq 0 4) = true) by (vm_compute; reflexivity).
    intros i x Hi Hx. cbn in Hi, Hx. apply linked_b. split; [exact Hx|]. rewrite forallb_forall in B.
    specialize (B i ltac:(apply in_seq; lia)). rewrite forallb_forall in B. apply B, in_seq. lia.
  - assert (B : forallb (fun i => forallb (fun x => forallb (fun y => (x =? y) ||
       nlt (sval exF i x) (sval exF i y) || nlt (sval exF i y) (sval exF i x)) (seq 0 4)) (seq 0 4)) (seq 0 4) = true) by (vm_compute; reflexivity).
    intros i x y Hi Hx Hy Hne. rewrite forallb_forall in B. specialize (B i ltac:(apply in_seq; lia)). rewrite forallb_forall in B.
    specialize (B x ltac:(apply in_seq; lia)). rewrite forallb_forall in B. specialize (B y ltac:(apply in_seq; lia)).
    apply Nat.eqb_neq in Hne. rewrite Hne in B. cbn in B. now apply orb_true_iff in B.
Qed.

(** two tight pairs of objects; the evaluation as distances gets everything
    wrong, the dense evaluation everything right *)
Definition exD : smat f64 := sp_of [[0;1;8;9]; [1;0;9;8]; [8;9;0;1]; [9;8;1;0]]%Z.
Definition exDd : arr2 f64 := Arr2 4 4 (sval exD).
Theorem C108_witness :
  (forall i, i < 4 -> ~ linked exD i i /\ exists x, linked exD i x) /\
  (forall i x, i < 4 -> linked exD i x -> nlt n0 (sval exD i x) = true) /\ finite_sims exD 4 /\
  exists s d, score_sparse ref_argpart idp idp2 exD exlab [1]%Z "distance" None None = Ok [s] /\
    map (k_corr s) [0;1;2;3] = [false;false;false;false] /\
    score ref_argsort idp idp2 exDd exlab [1]%Z "distance" None None = Ok [d] /\
    map (k_corr d) [0;1;2;3] = [true;true;true;true].
Proof.
  assert (B : forallb (fun i => negb (is_stored exD i i) && is_stored exD i (if i =? 0 then 1 else 0) &&
     forallb (fun x => negb (is_stored exD i x) || nlt n0 (sval exD i x)) (seq 0 4)) (seq 0 4) = true) by (vm_compute; reflexivity).
  rewrite forallb_forall in B. split; [|split; [|split]].
  - intros i Hi. specialize (B i ltac:(apply in_seq; lia)). rewrite !andb_true_iff, negb_true_iff in B. destruct B as ((B1 & B2) & _).
    split; [intros H; apply linked_b in H; destruct H; congruence|].
    exists (if i =? 0 then 1 else 0). apply linked_b. split; [cbn; destruct (i =? 0); lia|exact B2].
  - intros i x Hi Hx. specialize (B i ltac:(apply in_seq; lia)). rewrite !andb_true_iff, forallb_forall in B. destruct B as (_ & B).
    apply linked_b in Hx. destruct Hx as (Hx & Hs). cbn in Hx. specialize (B x ltac:(apply in_seq; lia)). now rewrite Hs in B.
  - apply fins_b_ok. vm_compute. reflexivity.
  - eexists. eexists. split; [reflexivity|]. split; [vm_compute; reflexivity|]. split; [reflexivity|]. vm_compute. reflexivity.
Qed.

(** objects 2 and 3 are held out; no other object has their label *)
Example C109_case : similarities exF 4 /\ finite_sims exF 4 /\
  (forall i, In i [2;3] -> exists y, In y [2;3] /\ y <> i /\ nth y exlab 0%Z = nth i exlab 0%Z /\ linked exF i y /\
       forall x, linked exF i x -> x <> i -> x <> y -> nlt (sval exF i x) (sval exF i y) = true) /\
  (forall x, x < 4 -> ~ In x [2;3] -> nth x exlab 0%Z <> 6%Z).
Proof.
  split; [apply sims_b_ok; vm_compute; reflexivity|]. split; [apply fins_b_ok; vm_compute; reflexivity|]. split.
  - intros i [<-|[<-|[]]]; [exists 3|exists 2]; (split; [cbn; auto|]; split; [discriminate|]; split; [reflexivity|]; split;
      [apply linked_b; split; [cbn; lia|vm_compute; reflexivity]|]).
    + intros x (Hx & _) H1 H2. cbn in Hx. assert (x = 0 \/ x = 1) as [->| ->] by lia; vm_compute; reflexivity.
    + intros x (Hx & _) H1 H2. cbn in Hx. assert (x = 0 \/ x = 1) as [->| ->] by lia; vm_compute; reflexivity.
  - intros x Hx Hn. do 2 (destruct x as [|x]; [cbn; discriminate|]). destruct x as [|[|x]]; [| |lia]; exfalso; apply Hn; cbn; auto.
Qed.

Definition exE : smat f64 := SMat 2 2 (fun i j => if i =? 0 then Some n1 else None).
Definition exZ : smat f64 := SMat 2 2 (fun i j => Some (if i =? j then n0 else n1)).
Example C110_case :
  (forall x, ~ linked exE 1 x) /\ score_sparse ref_argpart idp idp2 exE [1;2]%Z [1]%Z "similarity" None None = Raise ValueError /\
  linked exZ 1 1 /\ neq (sval exZ 1 1) n0 = true /\
  score_sparse ref_argpart idp idp2 exZ [1;2]%Z [1]%Z "distance" None None = Raise IndexError.
Proof.
  split; [intros x (_ & v & H); discriminate|]. split; [vm_compute; reflexivity|].
  split; [split; [cbn; lia|eexists; reflexivity]|]. split; vm_compute; reflexivity.
Qed.

Print Assumptions C106_leave_one_out.
Print Assumptions C107_sparse_agrees_with_dense.
Print Assumptions C108_metric_ignored.
Print Assumptions C108_farthest_objects_vote.
Print Assumptions C108_witness.
Print Assumptions C109_test_set_is_leave_one_out.
Print Assumptions C109_perfect_without_training.
Print Assumptions C110_sample_refused.
Print Assumptions C110_empty_row_raises.
Print Assumptions C110_stored_zero_raises.
