(** Property C176: stored NaN values and zeros in [score] for sparse matrices
    (knn_classification.py:171-246). *)
From Coq Require Import String.
From Coq Require Import ZArith List Arith Lia Bool Permutation.
From Verif Require Import Py Num Arr Sort S_Neighbors S_KNN M_IO M_GK M_SNN M_KNN M_MPEmpiric M_SparseKNN.
From Verif Require Import S_SparseKNN P_Neighbors P_SNN P_KNN P_KNN2 P_KNN4 P_GK P_GK2 P_SparseKNN P_SparseKNN2 P_SparseKNN3 P_SparseKNN4 P_SparseKNN5 P_SparseScore P_SparseScore2.
From Verif Require Import S_SparseNaN P_SparseNaN P_SparseNaN2 Properties_SparseNaN.
Import ListNotations.
Local Open Scope nat_scope.

Lemma readable_dec (S : smat f64) i : (exists x, known S i x /\ length (nonzero_cols S i) <= rank S i x) \/ readable S i.
Proof.
  destruct (existsb (fun x => negb (nisnan (sval S i x)) && (length (nonzero_cols S i) <=? rank S i x)) (sp_cols S i)) eqn:E.
  - left. apply existsb_exists in E as (x & Hx & E). apply andb_true_iff in E as (E1 & E2). exists x.
    split; [split; [now apply stored_linked|now apply negb_true_iff]|now apply Nat.leb_le].
  - right. intros x (Hx & Hn). destruct (Nat.lt_ge_cases (rank S i x) (length (nonzero_cols S i))) as [|C]; [assumption|]. exfalso.
    apply not_true_iff_false in E. apply E, existsb_exists. exists x. split; [now apply stored_linked|].
    rewrite Hn. now apply Nat.leb_le.
Qed.

(** ** the evaluation: one ranking per object; the voters are the objects blamed for
    the similarities at ranks 1..k whose own similarity is finite *)
Theorem C176_votes :
  forall argpart : list f64 -> list nat -> list nat, argpart_ok argpart ->
  forall rp, (forall i l, Permutation (rp i l) l) ->
  forall sh, (forall (i j : nat) l, Permutation (sh i j l) l) ->
  forall (S : smat f64) (lab : list Z) (ks : list nat) metric cl,
    let n := length lab in
    srow S = n -> scol S = n -> lab <> [] -> metric = "similarity"%string \/ metric = "distance"%string -> distinct_sorted lab cl ->
    (forall i, i < n -> exists x, linked S i x) -> (forall i, i < n -> readable S i) -> (forall k, In k ks -> 0 < k) ->
    exists out pred unknown,
      score_sparse argpart rp sh S lab (map Z.of_nat ks) metric None None = Ok out /\ length out = length ks /\
      ~ In unknown lab /\
      (forall j s, nth_error out j = Some s ->
         describes (seq 0 n) (fun i => nth i lab 0%Z) (cl ++ [unknown]) (pred j) (k_corr s) (k_cmat s) /\
         consistent (seq 0 n) (fun i => nth i lab 0%Z) (cl ++ [unknown]) (k_acc s) (k_corr s) (k_cmat s)) /\
      forall i, i < n -> exists L,
        NoDup L /\ (forall x, In x L <-> known S i x) /\
        (forall k, In k ks -> n_nan S i <= k -> best_first S i (k + 1 - n_nan S i) L) /\
        (n_nan S i <= 1 -> best_first S i 1 L) /\
        let others := map (blamed S i) (tl L) in
        let voters k := filter (fun x => nisfin (sval S i x)) (firstn k others) in
        forall j, j < length ks ->
          (others = [] -> pred j i = unknown) /\
          (others <> [] -> exists x, In x others /\ pred j i = nth x lab 0%Z) /\
          ((forall j', j' <= j -> voters (nth j' ks 0) <> []) ->
             elected (map (fun x => nth x lab 0%Z) (voters (nth j ks 0))) (pred j i)).
Proof.
  intros argpart AP rp RP sh SH S lab ks metric cl n HR HC Hl HM Hds Hne Hrd Hk. rewrite (distinct_unique _ _ Hds).
  assert (HV : valid_metric metric = true) by (destruct HM as [-> | ->]; reflexivity).
  set (P := fun i l => exists L, NoDup L /\ (forall x, In x L <-> known S i x) /\
        (forall k, In k ks -> n_nan S i <= k -> best_first S i (k + 1 - n_nan S i) L) /\
        (n_nan S i <= 1 -> best_first S i 1 L) /\
        sp_point argpart rp sh S (map Z.of_nat ks) (length (xcl lab)) (map (class_index (xcl lab)) lab) i = Ok l /\
        l = map (fun nn => knn_vote (length (xcl lab)) (take 0 (map (class_index (xcl lab)) lab) nn))
               (knn_voters (sp_row S i) (sh i) 0 (map Z.of_nat ks) (map (blamed S i) (tl L)))).
  destruct (fin_choice (@nil nat) P n) as (pt & Hpt).
  { intros i Hi. destruct (point_gen f64_cmp argpart AP rp RP sh S lab ks i HC (Hne i Hi)) as (L & ND & IL & Hb & _ & Ho).
    eexists. exists L. split; [exact ND|]. split; [exact IL|]. split; [intros k Hin; apply Hb; now left|]. split; [|split; [now apply Ho, Hrd|reflexivity]].
    intros Hq. destruct (n_nan S i) as [|[|q]] eqn:En; [| |lia].
    - apply (Hb 0); [auto|lia].
    - apply (Hb 1); [auto|lia]. }
  assert (Lt : forall i L, i < n -> (forall x, In x L <-> known S i x) -> forall x, In x (map (blamed S i) (tl L)) -> x < length lab).
  { intros i L Hi IL x Hx. apply in_map_iff in Hx as (y & <- & Hy). apply (Nat.lt_le_trans _ (scol S)); [|rewrite HC; apply Nat.le_refl]. apply blamed_lt; [now apply Hrd|].
    apply IL. destruct L; [contradiction|now right]. }
  assert (Hnth : forall i L, nth i (map (fun nn => knn_vote (length (xcl lab)) (take 0 (map (class_index (xcl lab)) lab) nn)) L) 0 =
                   if i <? length L then knn_vote (length (xcl lab)) (take 0 (map (class_index (xcl lab)) lab) (nth i L [])) else 0).
  { intros i L. revert i. induction L as [|a L IH]; intros [|i]; cbn [map nth length]; try reflexivity. exact (IH i). }
  destruct (score_gen argpart rp sh S lab ks metric pt HR HC Hl HV) as (out & E & Lo & D).
  { intros i Hi. destruct (Hpt i Hi) as (L & ND & IL & _ & _ & Ei & El). split; [exact Ei|]. rewrite El.
    split; [now rewrite map_length, voters_length, map_length|]. intros j Hj. rewrite Hnth, voters_length, map_length.
    apply Nat.ltb_lt in Hj as Hjb. rewrite Hjb. apply vote_labels. intros x Hx. apply (Lt i L Hi IL).
    refine (voters_incl (sp_row S i) (sh i) (SH i) (map Z.of_nat ks) 0 _ _ _ x Hx). apply nth_In. now rewrite voters_length, map_length. }
  exists out, (fun j i => predicted lab (pt i) j), (last (unique_labels lab) 0 + 1)%Z.
  split; [exact E|]. split; [exact Lo|]. split; [now apply xcl_spec|]. split; [exact D|].
  intros i Hi. destruct (Hpt i Hi) as (L & ND & IL & Hb & Hb1 & Ei & El).
  exists L. split; [exact ND|]. split; [exact IL|]. split; [exact Hb|]. split; [exact Hb1|]. intros others voters j Hj.
  set (W := nth j (knn_voters (sp_row S i) (sh i) 0 (map Z.of_nat ks) others) []).
  assert (Ew : predicted lab (pt i) j = nth (knn_vote (length (xcl lab)) (take 0 (map (class_index (xcl lab)) lab) W)) (xcl lab) 0%Z).
  { unfold predicted. rewrite El, Hnth, voters_length, map_length. apply Nat.ltb_lt in Hj as ->. reflexivity. }
  assert (Iw : incl W others).
  { refine (voters_incl (sp_row S i) (sh i) (SH i) (map Z.of_nat ks) 0 _ _ _). unfold W. apply nth_In. now rewrite voters_length, map_length. }
  assert (Lw : forall x, In x W -> x < length lab) by (intros x Hx; apply (Lt i L Hi IL), Iw, Hx).
  destruct (vote_labels lab W Lw) as (V0 & V1 & _). rewrite Ew.
  assert (Hz : forall j, nth j (map Z.of_nat ks) 0%Z = Z.of_nat (nth j ks 0)) by (intros j'; change 0%Z with (Z.of_nat 0); apply map_nth).
  split; [|split].
  - intros Eo. apply V0. unfold W. rewrite Eo, voters_nil by apply SH.
    change (@nil nat) with ((fun _ : Z => @nil nat) 0%Z) at 2. now rewrite map_nth.
  - intros Eo.
    assert (Hw : W <> []).
    { assert (G : forall ks j j0 idx, (forall k, In k ks -> 0 < k) -> j < length ks -> idx <> [] ->
        nth j (knn_voters (sp_row S i) (sh i) j0 (map Z.of_nat ks) idx) [] <> []).
      { clear - SH. induction ks as [|k ks IH]; intros j j0 idx Hk Hj Hi; cbn [length] in Hj; [lia|]. cbn [map knn_voters].
        destruct (filter _ (prefix idx (Z.of_nat k))) as [|f fs] eqn:Ef.
        - assert (Hs : sh i j0 idx <> []). { intros C. pose proof (SH i j0 idx) as P. rewrite C in P. apply Permutation_nil in P. contradiction. }
          destruct j as [|j]; cbn [nth].
          + rewrite prefix_nat. specialize (Hk k (or_introl eq_refl)). destruct k; [lia|]. destruct (sh i j0 idx); [congruence|discriminate].
          + apply IH; [intros; apply Hk; now right|lia|exact Hs].
        - destruct j as [|j]; cbn [nth]; [discriminate|]. apply IH; [intros; apply Hk; now right|lia|exact Hi]. }
      now apply G. }
    specialize (V1 Hw). set (c := nth (knn_vote _ _) (xcl lab) 0%Z) in *.
    assert (Hc : In c (map (fun x => nth x lab 0%Z) W)).
    { destruct V1 as [Hp|(_ & H0)].
      - unfold plurality in Hp. destruct W as [|w W']; [congruence|]. destruct (in_dec Z.eq_dec c (map (fun x => nth x lab 0%Z) (w :: W'))) as [|Hn]; [assumption|]. exfalso.
        assert (Hd : nth w lab 0%Z <> c) by (intros <-; apply Hn; now left). specialize (Hp _ Hd).
        unfold zvotes in Hp. apply (count_occ_not_In Z.eq_dec) in Hn. rewrite Hn in Hp. lia.
      - now apply nth_error_In in H0. }
    apply in_map_iff in Hc as (x & Ex & Hx). exists x. split; [now apply Iw|now symmetry].
  - intros Hv.
    assert (Ef : forall k, filter (fun x => nisfin (nth x (sp_row S i) nnan)) (prefix others (Z.of_nat k)) = voters k).
    { intros k. rewrite prefix_nat. apply filter_ext_in. intros x Hx. unfold sp_row. rewrite nth_map_seq; [reflexivity|].
      rewrite HC. apply (Lt i L Hi IL). fold others. rewrite <- (firstn_skipn k others). apply in_app_iff. now left. }
    assert (EW : W = voters (nth j ks 0)).
    { unfold W. rewrite voters_finite.
      - now rewrite Hz, Ef.
      - now rewrite map_length.
      - intros j' Hj'. rewrite Hz, Ef. now apply Hv. }
    rewrite <- EW. apply V1. rewrite EW. now apply Hv.
Qed.

(** ** IndexError, whatever the metric *)
Theorem C176_index_error :
  forall argpart : list f64 -> list nat -> list nat, argpart_ok argpart ->
  forall rp, (forall i l, Permutation (rp i l) l) ->
  forall sh, (forall (i j : nat) l, Permutation (sh i j l) l) ->
  forall (S : smat f64) (lab : list Z) (ks : list nat) metric,
    let n := length lab in
    srow S = n -> scol S = n -> lab <> [] -> metric = "similarity"%string \/ metric = "distance"%string ->
    (forall i, i < n -> exists x, linked S i x) ->
    score_sparse argpart rp sh S lab (map Z.of_nat ks) metric None None = Raise IndexError <->
    exists i x, i < n /\ known S i x /\ length (nonzero_cols S i) <= rank S i x.
Proof.
  intros argpart AP rp RP sh SH S lab ks metric n HR HC Hl HM Hne.
  assert (HV : valid_metric metric = true) by (destruct HM as [-> | ->]; reflexivity).
  assert (Pt : forall i, i < n -> (readable S i /\ exists l, sp_point argpart rp sh S (map Z.of_nat ks) (length (xcl lab)) (map (class_index (xcl lab)) lab) i = Ok l /\
      length l = length ks /\ forall j, j < length ks -> nth j l 0 < length (xcl lab)) \/
    ((exists x, known S i x /\ length (nonzero_cols S i) <= rank S i x) /\
     sp_point argpart rp sh S (map Z.of_nat ks) (length (xcl lab)) (map (class_index (xcl lab)) lab) i = Raise IndexError)).
  { intros i Hi. destruct (point_gen f64_cmp argpart AP rp RP sh S lab ks i HC (Hne i Hi)) as (L & ND & IL & _ & Hx & Ho).
    destruct (readable_dec S i) as [Hd|Hd].
    - right. split; [exact Hd|]. apply Hx. intros C. destruct Hd as (x & Kx & Lx). apply C in Kx. lia.
    - left. split; [exact Hd|]. eexists. split; [now apply Ho|]. split; [now rewrite map_length, voters_length, map_length|].
      intros j Hj.
      assert (Hin : In (nth j (map (fun nn => knn_vote (length (xcl lab)) (take 0 (map (class_index (xcl lab)) lab) nn))
               (knn_voters (sp_row S i) (sh i) 0 (map Z.of_nat ks) (map (blamed S i) (tl L)))) 0)
              (map (fun nn => knn_vote (length (xcl lab)) (take 0 (map (class_index (xcl lab)) lab) nn))
               (knn_voters (sp_row S i) (sh i) 0 (map Z.of_nat ks) (map (blamed S i) (tl L))))).
      { apply nth_In. now rewrite map_length, voters_length, map_length. }
      apply in_map_iff in Hin as (nn & <- & Hnn). apply vote_labels. intros x Hx'.
      assert (Hx2 : In x (map (blamed S i) (tl L))) by (exact (voters_incl (sp_row S i) (sh i) (SH i) (map Z.of_nat ks) 0 _ _ Hnn x Hx')).
      apply in_map_iff in Hx2 as (y & <- & Hy). apply (Nat.lt_le_trans _ (scol S)); [|rewrite HC; apply Nat.le_refl]. apply blamed_lt; [exact Hd|].
      apply IL. destruct L; [contradiction|now right]. }
  split.
  - intros Hr.
    assert (Dec : (exists i, i < n /\ exists x, known S i x /\ length (nonzero_cols S i) <= rank S i x) \/ forall i, i < n -> readable S i).
    { clear - S. induction n as [|m IH]; [right; intros; lia|]. destruct IH as [(i & Hi & H)|IH]; [left; exists i; split; [lia|exact H]|].
      destruct (readable_dec S m) as [H|H]; [left; exists m; split; [lia|exact H]|]. right. intros i Hi.
      destruct (Nat.eq_dec i m) as [->|]; [exact H|apply IH; lia]. }
    destruct Dec as [(i & Hi & x & Kx & Lx)|Dec]; [exists i, x; exact (conj Hi (conj Kx Lx))|]. exfalso.
    destruct (fin_choice (@nil nat) (fun i l => sp_point argpart rp sh S (map Z.of_nat ks) (length (xcl lab)) (map (class_index (xcl lab)) lab) i = Ok l /\
      length l = length ks /\ forall j, j < length ks -> nth j l 0 < length (xcl lab)) n) as (pt & Hpt).
    { intros i Hi. destruct (Pt i Hi) as [(_ & H)|((x & Kx & Lx) & _)]; [exact H|]. apply Dec in Kx; [lia|exact Hi]. }
    destruct (score_gen argpart rp sh S lab ks metric pt HR HC Hl HV Hpt) as (out & E & _). congruence.
  - intros (i & x & Hi & Kx & Lx).
    apply (score_sparse_fails argpart rp sh S lab ks metric IndexError i HR HC Hl HV Hi).
    + rewrite <- xcl_length, classes_xcl. destruct (Pt i Hi) as [(H & _)|(_ & E)]; [apply H in Kx; lia|exact E].
    + intros k Hk'. rewrite <- xcl_length, classes_xcl. intros Hok. destruct (Pt k Hk') as [(_ & l & E & _)|(_ & E)]; [|exact E].
      rewrite E in Hok. discriminate.
Qed.

(** ** DEFECT, a stored zero and a NaN: the similarity to object 2 is taken for the
    one to object 3, so object 0 is classified by the wrong label *)
Definition shifted5 : smat f64 := SMat 5 5 (fun i j =>
  match i, j with
  | 0, 0 => Some (@nofnat f64 _ 5) | 0, 1 => Some (@n0 f64 _) | 0, 2 => Some (@nofnat f64 _ 3) | 0, 3 => Some (@n1 f64 _) | 0, 4 => Some (@nnan f64 _)
  | _, _ => if i =? j then Some (@nofnat f64 _ 5) else None end).

Theorem C176_wrong_object :
  exists s, score_sparse ref_argpart (fun _ l => l) (fun _ _ l => l) shifted5 [0; 1; 1; 0; 1]%Z [1]%Z "similarity" None None = Ok [s] /\
    k_corr s 0 = true /\ top_list (sval shifted5 0) (fun x => known shifted5 0 x /\ x <> 0) 1 [2] /\
    nth 2 [0; 1; 1; 0; 1]%Z 0%Z <> nth 0 [0; 1; 1; 0; 1]%Z 0%Z /\ blamed shifted5 0 2 = 3.
Proof.
  assert (E : match score_sparse ref_argpart (fun _ l => l) (fun _ _ l => l) shifted5 [0; 1; 1; 0; 1]%Z [1]%Z "similarity" None None with
              | Ok [s] => k_corr s 0 | _ => false end = true) by (vm_compute; reflexivity).
  destruct (score_sparse _ _ _ _ _ _ _ _ _) as [[|s [|s' o]]|]; try discriminate. exists s. split; [reflexivity|]. split; [exact E|]. clear E.
  split; [|split; [discriminate|vm_compute; reflexivity]].
  assert (Kn : forall x, known shifted5 0 x /\ x <> 0 -> x = 1 \/ x = 2 \/ x = 3).
  { intros x (((Hx & v & Ev) & Hn) & H0). destruct x as [|[|[|[|[|x]]]]]; [congruence|lia|lia|lia|discriminate|cbn in Hx; lia]. }
  constructor.
  - reflexivity.
  - repeat constructor. intros [].
  - intros x [<-|[]]. split; [|discriminate]. split; [|reflexivity]. split; [cbn; lia|]. now eexists.
  - intros x y Hx Hnx [<-|[]]. destruct (Kn x Hx) as [-> |[-> | ->]]; [vm_compute; reflexivity| |vm_compute; reflexivity]. exfalso. apply Hnx. now left.
  - intros h x Hh Hx. cbn in Hh. injection Hh as <-. destruct (Kn x Hx) as [-> |[-> | ->]]; vm_compute; reflexivity.
Qed.

(** ** DEFECT, a single NaN: the vote depends on how argpartition leaves the entries
    whose position it does not fix *)
Theorem C176_one_nan :
  exists s s',
    score_sparse ref_argpart (fun _ l => l) (fun _ _ l => l) one_nan [0; 1; 0; 1]%Z [1]%Z "similarity" None None = Ok [s] /\
    score_sparse other_argpart (fun _ l => l) (fun _ _ l => l) one_nan [0; 1; 0; 1]%Z [1]%Z "similarity" None None = Ok [s'] /\
    argpart_ok other_argpart /\ k_corr s 0 = false /\ k_corr s' 0 = true /\
    known one_nan 0 1 /\ known one_nan 0 2 /\ nlt (sval one_nan 0 2) (sval one_nan 0 1) = true /\ n_nan one_nan 0 = 1.
Proof.
  assert (E : match score_sparse ref_argpart (fun _ l => l) (fun _ _ l => l) one_nan [0; 1; 0; 1]%Z [1]%Z "similarity" None None,
                    score_sparse other_argpart (fun _ l => l) (fun _ _ l => l) one_nan [0; 1; 0; 1]%Z [1]%Z "similarity" None None with
              | Ok [s], Ok [s'] => negb (k_corr s 0) && k_corr s' 0 | _, _ => false end = true) by (vm_compute; reflexivity).
  destruct (score_sparse ref_argpart _ _ _ _ _ _ _ _) as [[|s [|x o]]|]; try discriminate.
  destruct (score_sparse other_argpart _ _ _ _ _ _ _ _) as [[|s' [|x o]]|]; try discriminate.
  apply andb_true_iff in E as (E1 & E2). apply negb_true_iff in E1.
  exists s, s'. split; [reflexivity|]. split; [reflexivity|]. split; [apply other_argpart_ok|]. split; [exact E1|]. split; [exact E2|].
  split; [split; [split; [cbn; lia|now eexists]|reflexivity]|]. split; [split; [split; [cbn; lia|now eexists]|reflexivity]|].
  split; vm_compute; reflexivity.
Qed.

(** ** The hypotheses can be met: all rows of the first example are filled and
    readable *)
Example C176_case :
  (forall i, i < 5 -> exists x, linked shifted5 i x) /\ (forall i, i < 5 -> readable shifted5 i) /\ distinct_sorted [0; 1; 1; 0; 1]%Z [0; 1]%Z.
Proof.
  split; [|split].
  - intros i Hi. exists i. split; [exact Hi|]. destruct i as [|[|[|[|[|i]]]]]; try (now eexists). lia.
  - intros i Hi.
    assert (B : forallb (fun i => forallb (fun x => negb (is_stored shifted5 i x) || nisnan (sval shifted5 i x) || (rank shifted5 i x <? length (nonzero_cols shifted5 i))) (seq 0 5)) (seq 0 5) = true)
      by (vm_compute; reflexivity).
    rewrite forallb_forall in B. specialize (B i ltac:(apply in_seq; lia)). rewrite forallb_forall in B.
    intros x (Hx & Hn). pose proof Hx as Hx'. destruct Hx' as (Hl & _). specialize (B x ltac:(apply in_seq; cbn in Hl; lia)).
    assert (Hs : is_stored shifted5 i x = true). { apply stored_linked in Hx. now apply filter_In in Hx. }
    rewrite Hs, Hn in B. cbn [negb orb] in B. now apply Nat.ltb_lt.
  - split; [repeat constructor|]. intros c. cbn. intuition.
Qed.

Print Assumptions C176_votes.
Print Assumptions C176_index_error.
Print Assumptions C176_wrong_object.
Print Assumptions C176_one_nan.
