(** Proofs about the k-NN classification model. *)
From Coq Require Import String.
From Coq Require Import ZArith List Arith Lia Bool Permutation Sorting.
From Verif Require Import Py Num Arr Sort S_Neighbors S_KNN M_IO M_GK M_SNN M_KNN P_GK P_GK2 P_SNN.
Import ListNotations.
Local Open Scope nat_scope.

(** ** votes *)
Lemma max_list_le l x : In x l -> x <= max_list l.
Proof.
  induction l as [|y l IH]; simpl; [contradiction|]. intros [->|H]; [lia|]. specialize (IH H). lia.
Qed.
Lemma max_list_in l : l <> [] -> In (max_list l) l.
Proof.
  induction l as [|y l IH]; [congruence|]. intros _. destruct l as [|z l].
  - simpl. left. lia.
  - change (max_list (y :: z :: l)) with (Nat.max y (max_list (z :: l))).
    destruct (Nat.max_dec y (max_list (z :: l))) as [E|E]; rewrite E; [now left|].
    right. apply IH. discriminate.
Qed.

Definition plur (nn : list nat) (c : nat) : Prop :=
  forall c', c' <> c -> count_occ Nat.eq_dec nn c' < count_occ Nat.eq_dec nn c.

Lemma bincount0_eq nn : exists m, (forall x, In x nn -> x < m) /\ (nn <> [] -> 0 < m) /\ (nn = [] -> m = 0) /\
  bincount nn 0 = map (count_occ Nat.eq_dec nn) (seq 0 m).
Proof.
  unfold bincount. rewrite Nat.max_0_l. eexists. split; [|split; [|split]]; [| | |reflexivity].
  - intros x Hx. now apply bincount_fold_le in Hx.
  - destruct nn as [|x nn]; [congruence|]. intros _.
    pose proof (bincount_fold_le (x :: nn) x (or_introl eq_refl)). lia.
  - intros ->. reflexivity.
Qed.

Lemma two_in {A} (l : list A) : 1 < length l -> NoDup l -> exists x y, In x l /\ In y l /\ x <> y.
Proof.
  destruct l as [|x [|y l]]; simpl; try lia. intros _ H. exists x, y.
  inversion H as [|? ? Hx _]; subst. split; [auto|]. split; [auto|].
  intros ->. apply Hx. now left.
Qed.

Lemma vote_nil n_cl : knn_vote n_cl [] = n_cl - 1.
Proof. reflexivity. Qed.

Lemma vote_spec n_cl nn : nn <> [] ->
  plur nn (knn_vote n_cl nn) \/
  ((forall d, ~ plur nn d) /\ nth_error nn 0 = Some (knn_vote n_cl nn)).
Proof.
  intros Hne. unfold knn_vote.
  destruct (bincount0_eq nn) as (m & Hlt & Hm & _ & ->). specialize (Hm Hne).
  set (cs := map (count_occ Nat.eq_dec nn) (seq 0 m)).
  assert (Hl : length cs = m) by (unfold cs; now rewrite map_length, seq_length).
  rewrite Hl. replace (0 <? m) with true by (symmetry; apply Nat.ltb_lt; lia).
  set (M := max_list cs).
  assert (Hcs : forall c, c < m -> nth c cs 0 = count_occ Nat.eq_dec nn c)
    by (intros c Hc; unfold cs; now apply nth_map_seq).
  assert (HM : forall c, count_occ Nat.eq_dec nn c <= M).
  { intros c. destruct (Nat.ltb_spec c m).
    - rewrite <- Hcs by assumption. apply max_list_le, nth_In. lia.
    - rewrite (proj1 (count_occ_not_In Nat.eq_dec nn c)); [lia|]. intros Hin. specialize (Hlt c Hin). lia. }
  assert (HM0 : 0 < M).
  { destruct nn as [|x nn]; [congruence|]. specialize (HM x).
    assert (In x (x :: nn)) as Hx by now left.
    apply (count_occ_In Nat.eq_dec) in Hx. lia. }
  assert (HMin : In M cs). { apply max_list_in. intros E. rewrite E in Hl. simpl in Hl. lia. }
  set (mx := filter (fun c => nth c cs 0 =? M) (seq 0 m)).
  assert (Hmx : forall c, In c mx <-> count_occ Nat.eq_dec nn c = M).
  { intros c. unfold mx. rewrite filter_In, in_seq, Nat.eqb_eq. split.
    - intros (H1 & H2). now rewrite <- Hcs by lia.
    - intros H. assert (c < m). { destruct (Nat.ltb_spec c m); [assumption|].
        rewrite (proj1 (count_occ_not_In Nat.eq_dec nn c)) in H; [lia|]. intros Hin. specialize (Hlt c Hin). lia. }
      rewrite Hcs by assumption. split; [lia|assumption]. }
  assert (Hnd : NoDup mx) by (apply NoDup_filter, seq_NoDup).
  destruct (1 <? length mx) eqn:E.
  - right. apply Nat.ltb_lt in E. destruct (two_in mx E Hnd) as (x & y & Hx & Hy & Hxy).
    apply Hmx in Hx. apply Hmx in Hy. split.
    + intros d Hd. destruct (Nat.eq_dec x d) as [->|].
      * specialize (Hd y (fun e => Hxy (eq_sym e))). lia.
      * specialize (Hd x n). specialize (HM d). lia.
    + destruct nn; [congruence|reflexivity].
  - left. apply Nat.ltb_ge in E.
    destruct (In_nth _ _ 0 HMin) as (c0 & Hc0 & Ec0). rewrite Hl in Hc0. rewrite Hcs in Ec0 by assumption.
    apply Hmx in Ec0. destruct mx as [|c [|? ?]] eqn:Emx; simpl in E; try lia; [contradiction|].
    simpl. intros c' Hc'. pose proof (HM c'). assert (count_occ Nat.eq_dec nn c = M) by (apply Hmx; now left).
    destruct (Nat.eq_dec (count_occ Nat.eq_dec nn c') M) as [E'|]; [|lia].
    apply Hmx in E'. destruct E' as [<-|[]]. congruence.
Qed.

Lemma vote_in n_cl nn : nn <> [] -> In (knn_vote n_cl nn) nn.
Proof.
  intros H. destruct (vote_spec n_cl nn H) as [P|(_ & E)].
  - destruct (in_dec Nat.eq_dec (knn_vote n_cl nn) nn) as [|Hn]; [assumption|].
    destruct nn as [|x nn]; [congruence|].
    assert (x <> knn_vote n_cl (x :: nn)) as Hx by (intros E; apply Hn; rewrite <- E; now left).
    specialize (P x Hx). apply (count_occ_not_In Nat.eq_dec) in Hn. lia.
  - now apply nth_error_In in E.
Qed.

(** transfer to labels *)
Lemma count_occ_map_inj (cl : list Z) nn k : NoDup cl -> k < length cl -> (forall x, In x nn -> x < length cl) ->
  zvotes (map (fun c => nth c cl 0%Z) nn) (nth k cl 0%Z) = count_occ Nat.eq_dec nn k.
Proof.
  intros Hn Hk H. unfold zvotes. induction nn as [|x nn IH]; [reflexivity|]. simpl.
  rewrite IH by (intros y Hy; apply H; now right).
  destruct (Nat.eq_dec x k) as [->|Hne].
  - destruct (Z.eq_dec _ _); congruence.
  - destruct (Z.eq_dec (nth x cl 0%Z) (nth k cl 0%Z)) as [E|]; [|reflexivity].
    exfalso. apply Hne. apply (proj1 (NoDup_nth cl 0%Z) Hn); auto. apply H. now left.
Qed.

Lemma vote_elected (cl : list Z) n_cl nn : NoDup cl -> nn <> [] -> (forall x, In x nn -> x < length cl) ->
  elected (map (fun c => nth c cl 0%Z) nn) (nth (knn_vote n_cl nn) cl 0%Z).
Proof.
  intros Hn Hne Hr. set (f := fun c => nth c cl 0%Z).
  assert (Hcv : forall k, k < length cl -> zvotes (map f nn) (f k) = count_occ Nat.eq_dec nn k)
    by (intros k Hk; now apply count_occ_map_inj).
  assert (Hp : forall k, k < length cl -> (plur nn k <-> plurality (map f nn) (f k))).
  { intros k Hk. split; intros P.
    - intros c' Hc'. rewrite Hcv by assumption.
      destruct (in_dec Z.eq_dec c' cl) as [Hin|Hout].
      + destruct (In_nth _ _ 0%Z Hin) as (k' & Hk' & <-). fold (f k'). rewrite Hcv by assumption.
        apply P. intros ->. now apply Hc'.
      + unfold zvotes. rewrite (proj1 (count_occ_not_In Z.eq_dec (map f nn) c')).
        * destruct nn as [|x nn]; [congruence|]. destruct (Nat.eq_dec x k) as [->|Hx].
          { simpl. destruct (Nat.eq_dec k k); [lia|congruence]. }
          specialize (P x Hx). lia.
        * intros Hin. apply in_map_iff in Hin. destruct Hin as (x & <- & Hx). apply Hout, nth_In; auto.
    - intros c' Hc'. destruct (Nat.ltb_spec c' (length cl)).
      + rewrite <- !Hcv by assumption. apply P. intros E. apply Hc'.
        apply (proj1 (NoDup_nth cl 0%Z) Hn); auto.
      + rewrite (proj1 (count_occ_not_In Nat.eq_dec nn c')).
        * apply (count_occ_In Nat.eq_dec).
          destruct (in_dec Nat.eq_dec k nn) as [|Hk']; [assumption|].
          destruct nn as [|x nn]; [congruence|].
          assert (Hxk : x <> k) by (intros ->; apply Hk'; now left).
          assert (Hx : x < length cl) by (apply Hr; now left).
          assert (f x <> f k). { intros E. apply Hxk. apply (proj1 (NoDup_nth cl 0%Z) Hn); auto. }
          specialize (P (f x) H0). rewrite !Hcv in P by assumption.
          apply (count_occ_not_In Nat.eq_dec) in Hk'. lia.
        * intros Hin. specialize (Hr c' Hin). lia. }
  assert (Hv : knn_vote n_cl nn < length cl) by (apply Hr, vote_in; assumption).
  destruct (vote_spec n_cl nn Hne) as [P|(P & E)].
  - left. apply Hp; assumption.
  - right. split.
    + intros d Pd. destruct (in_dec Z.eq_dec d cl) as [Hin|Hout].
      * destruct (In_nth _ _ 0%Z Hin) as (k' & Hk' & <-). apply (P k'). apply Hp; assumption.
      * destruct nn as [|x nn]; [congruence|].
        assert (f x <> d). { intros <-. apply Hout, nth_In, Hr. now left. }
        specialize (Pd (f x) H).
        assert (zvotes (map f (x :: nn)) d = 0); [|lia].
        apply (count_occ_not_In Z.eq_dec). intros Hin. apply in_map_iff in Hin.
        destruct Hin as (y & <- & Hy). apply Hout, nth_In; auto.
    + destruct nn as [|x nn]; [congruence|].
      change (Some x = Some (knn_vote n_cl (x :: nn))) in E. injection E as E. rewrite <- E. reflexivity.
Qed.

(** ** class indices *)
Lemma class_index_lt cl t : In t cl -> class_index cl t < length cl.
Proof.
  induction cl as [|c cl IH]; simpl; [contradiction|]. destruct (Z.eqb_spec c t); [lia|].
  intros [->|H]; [congruence|]. specialize (IH H). lia.
Qed.
Lemma class_index_nth cl t : In t cl -> nth (class_index cl t) cl 0%Z = t.
Proof.
  induction cl as [|c cl IH]; simpl; [contradiction|]. destruct (Z.eqb_spec c t); [auto|].
  intros [->|H]; [congruence|]. now apply IH.
Qed.
Lemma class_index_inj cl t u : In t cl -> In u cl -> class_index cl t = class_index cl u -> t = u.
Proof. intros Ht Hu E. rewrite <- (class_index_nth cl t Ht), <- (class_index_nth cl u Hu). now rewrite E. Qed.
Lemma class_index_of_nth cl k : NoDup cl -> k < length cl -> class_index cl (nth k cl 0%Z) = k.
Proof.
  intros Hn Hk. apply (proj1 (NoDup_nth cl 0%Z) Hn).
  - apply class_index_lt, nth_In; assumption.
  - assumption.
  - apply class_index_nth, nth_In; assumption.
Qed.

(** ** ranking *)
Lemma SS_nth {A} (R : A -> A -> Prop) (l : list A) d :
  (forall a b, a < b -> b < length l -> R (nth a l d) (nth b l d)) -> StronglySorted R l.
Proof.
  induction l as [|x l IH]; intros H; constructor.
  - apply IH. intros a b Hab Hb. apply (H (S a) (S b)); simpl; lia.
  - apply Forall_forall. intros y Hy. destruct (In_nth _ _ d Hy) as (b & Hb & <-).
    apply (H 0 (S b)); simpl; lia.
Qed.
Lemma SS_filter {A} (R : A -> A -> Prop) p (l : list A) : StronglySorted R l -> StronglySorted R (filter p l).
Proof.
  induction 1 as [|x l Hs IH Hf]; simpl; [constructor|]. destruct (p x); [|assumption].
  constructor; [assumption|]. rewrite Forall_forall in *. intros y Hy. apply filter_In in Hy. now apply Hf.
Qed.
Lemma SS_map {A B} (R : A -> A -> Prop) (Q : B -> B -> Prop) (f : A -> B) l :
  StronglySorted R l -> (forall a b, In a l -> In b l -> R a b -> Q (f a) (f b)) -> StronglySorted Q (map f l).
Proof.
  induction 1 as [|x l Hs IH Hf]; simpl; intros H; [constructor|]. constructor.
  - apply IH. intros; apply H; auto.
  - rewrite Forall_forall in *. intros y Hy. apply in_map_iff in Hy. destruct Hy as (a & <- & Ha).
    apply H; auto.
Qed.
Lemma SS_snoc {A} (R : A -> A -> Prop) l x : StronglySorted R l -> (forall y, In y l -> R y x) ->
  StronglySorted R (l ++ [x]).
Proof.
  induction 1 as [|y l Hs IH Hf]; simpl; intros H; [repeat constructor|]. constructor.
  - apply IH. auto.
  - rewrite Forall_forall in *. intros z Hz. apply in_app_iff in Hz. destruct Hz as [Hz|[<-|[]]]; auto.
Qed.
Lemma SS_rev {A} (R : A -> A -> Prop) l : StronglySorted R l -> StronglySorted (fun a b => R b a) (rev l).
Proof.
  induction 1 as [|y l Hs IH Hf]; simpl; [constructor|]. apply SS_snoc; [assumption|].
  intros z Hz. apply in_rev in Hz. rewrite Forall_forall in Hf. auto.
Qed.

Section Rank.
  Context {V : Type} {N : Num V} {toX : V -> xr} (CL : CmpLaws V N toX).
  Variable argsort : list V -> list nat.
  Hypothesis AS : argsort_ok argsort.

  Lemma idx_ranking metric (row : list V) (rp : list nat) : NoDup rp ->
    ranking (fun x y => nearer metric (nth x row nnan) (nth y row nnan))
            (fun x => In x rp /\ nisnan (nth x row nnan) = false)
            (knn_idx argsort metric row rp).
  Proof.
    intros Hnd. unfold knn_idx. set (d2 := take nnan row rp).
    assert (Hd2 : length d2 = length rp) by apply take_length.
    destruct (AS d2) as (Pm & Ps). rewrite Hd2 in Pm, Ps.
    set (p := argsort d2) in *.
    assert (Hat : forall a, a < length rp -> nth a d2 nnan = nth (nth a rp 0) row nnan).
    { intros a Ha. unfold d2, take. rewrite nth_indep with (d' := nth 0 row nnan) by (now rewrite map_length).
      now rewrite map_nth with (f := fun k => nth k row nnan) (d := 0). }
    set (q := if is_sim metric then rev p else p).
    assert (Pq : Permutation q (seq 0 (length rp))).
    { unfold q. destruct (is_sim metric); [|assumption]. now rewrite <- Permutation_rev. }
    assert (Sp : StronglySorted (fun a b => sle (vat d2 a) (vat d2 b) = true) p).
    { apply (SS_nth _ p 0). intros a b Hab Hb. apply Ps; [assumption|].
      now rewrite (perm_seq_length _ _ Pm) in Hb. }
    assert (Sq : StronglySorted (fun a b => if is_sim metric then sle (vat d2 b) (vat d2 a) = true
                                            else sle (vat d2 a) (vat d2 b) = true) q).
    { unfold q. destruct (is_sim metric); [|assumption]. now apply SS_rev in Sp. }
    set (fq := filter (fun a => negb (nisnan (nth a d2 nnan))) q).
    assert (Hfq : forall a, In a fq <-> a < length rp /\ nisnan (nth (nth a rp 0) row nnan) = false).
    { intros a. unfold fq. rewrite filter_In, (perm_seq_In _ _ a Pq), negb_true_iff. split.
      - intros (H1 & H2). now rewrite Hat in H2 by assumption.
      - intros (H1 & H2). now rewrite Hat by assumption. }
    assert (Sfq := SS_filter _ (fun a => negb (nisnan (nth a d2 nnan))) _ Sq). fold fq in Sfq.
    split.
    - unfold take. assert (Hn : NoDup fq) by (apply NoDup_filter; eapply perm_seq_NoDup; eauto).
      revert Hn Hfq. generalize fq. intros l Hn Hl.
      assert (Hl' : forall a, In a l -> a < length rp) by (intros a Ha; now apply Hl).
      clear - Hnd Hn Hl'. induction Hn as [|a l Ha Hn IH]; simpl; constructor.
      + intros Hin. apply in_map_iff in Hin. destruct Hin as (b & Eb & Hb).
        assert (a = b); [|congruence]. apply (proj1 (NoDup_nth rp 0) Hnd); auto.
        * apply Hl'. now left.
        * apply Hl'. now right.
      + apply IH. intros b Hb. apply Hl'. now right.
    - intros x. unfold take. rewrite in_map_iff. split.
      + intros (a & <- & Ha). apply Hfq in Ha. split; [apply nth_In|]; apply Ha.
      + intros (Hx & Hnan). destruct (In_nth _ _ 0 Hx) as (a & Ha & Ea). exists a. split; [assumption|].
        apply Hfq. rewrite Ea. auto.
    - intros a b Hab Hb.
      apply (StronglySorted_nth (fun x y => nearer metric (nth y row nnan) (nth x row nnan) = false)
               (take 0 rp fq) 0); [|assumption|assumption].
      unfold take. eapply SS_map; [exact Sfq|]. intros u v Hu Hv Huv.
      apply Hfq in Hu. apply Hfq in Hv. unfold vat in Huv. rewrite !Hat in Huv by tauto.
      unfold nearer. destruct (is_sim metric).
      + destruct (nlt (nth (nth u rp 0) row nnan) (nth (nth v rp 0) row nnan)) eqn:E; [|reflexivity].
        apply (nlt_not_sle CL) in E. congruence.
      + destruct (nlt (nth (nth v rp 0) row nnan) (nth (nth u rp 0) row nnan)) eqn:E; [|reflexivity].
        apply (nlt_not_sle CL) in E. congruence.
  Qed.

  (** if a ranked list has a finite member and nothing beats the finite
      values, its first member is finite *)
  Lemma rank_head metric (row : list V) (cand : nat -> Prop) l x :
    valid_metric metric = true ->
    ranking (fun x y => nearer metric (nth x row nnan) (nth y row nnan)) cand l ->
    cand x -> nisfin (nth x row nnan) = true ->
    (forall y, cand y -> nisfin (nth y row nnan) = true \/ neq (nth y row nnan) (worst metric) = true) ->
    exists h t, l = h :: t /\ nisfin (nth h row nnan) = true.
  Proof.
    intros Hv R Hx Hf Hall. destruct l as [|h t].
    - apply (rk_in _ _ _ R) in Hx. contradiction.
    - exists h, t. split; [reflexivity|].
      destruct (Hall h) as [|E]; [apply (rk_in _ _ _ R); now left|assumption|]. exfalso.
      apply (rk_in _ _ _ R) in Hx. destruct Hx as [->|Hx].
      + unfold worst in E. destruct (is_sim metric).
        * pose proof (ninf_lt_fin CL _ Hf) as L.
          rewrite (cl_lt _ _ _ CL) in L. rewrite (cl_eq _ _ _ CL) in E.
          destruct (toX (nth x row nnan)), (toX nninf); simpl in *; xr_tac.
        * pose proof (fin_lt_inf CL _ Hf) as L.
          rewrite (cl_lt _ _ _ CL) in L. rewrite (cl_eq _ _ _ CL) in E.
          destruct (toX (nth x row nnan)), (toX ninf); simpl in *; xr_tac.
      + destruct (In_nth _ _ 0 Hx) as (b & Hb & Eb).
        pose proof (rk_sorted _ _ _ R 0 (S b) ltac:(lia) ltac:(simpl; lia)) as Hs. simpl in Hs.
        rewrite Eb in Hs. unfold nearer, worst in *. destruct (is_sim metric).
        * rewrite (nlt_neq_l CL _ _ _ E), (ninf_lt_fin CL) in Hs by assumption. discriminate.
        * rewrite (nlt_neq_r CL _ _ _ E), (fin_lt_inf CL) in Hs by assumption. discriminate.
  Qed.
End Rank.

(** ** voters *)
Section Voters.
  Context {V : Type} {N : Num V}.
  Variable row : list V.
  Variable sh : nat -> list nat -> list nat.
  Let fin x := nisfin (nth x row nnan).

  Lemma voters_length ks : forall j idx, length (knn_voters row sh j ks idx) = length ks.
  Proof.
    induction ks as [|k ks IH]; intros j idx; simpl; [reflexivity|].
    destruct (filter _ (prefix idx k)); simpl; now rewrite IH.
  Qed.

  Lemma prefix_incl {A} (l : list A) k : incl (prefix l k) l.
  Proof. unfold prefix. intros x Hx. rewrite <- (firstn_skipn (Z.to_nat (if (k <? 0)%Z then Z.of_nat (length l) + k else k)) l).
    apply in_app_iff. now left. Qed.

  Lemma voters_incl (SH : forall j l, Permutation (sh j l) l) ks : forall j idx nn,
    In nn (knn_voters row sh j ks idx) -> incl nn idx.
  Proof.
    induction ks as [|k ks IH]; intros j idx nn; simpl; [contradiction|].
    destruct (filter _ (prefix idx k)) as [|f fs] eqn:E; simpl.
    - intros [<-|H].
      + intros x Hx. apply prefix_incl in Hx. eapply Permutation_in; eauto.
      + intros x Hx. apply IH in H. eapply Permutation_in; [apply (SH j)|]. auto.
    - intros [<-|H]; [|eauto]. intros x Hx. rewrite <- E in Hx. apply filter_In in Hx.
      eapply prefix_incl, Hx.
  Qed.

  Lemma voters_finite ks : forall j0 idx j, j < length ks ->
    (forall j', j' <= j -> filter fin (prefix idx (nth j' ks 0%Z)) <> []) ->
    nth j (knn_voters row sh j0 ks idx) [] = filter fin (prefix idx (nth j ks 0%Z)).
  Proof.
    induction ks as [|k ks IH]; intros j0 idx j Hj H; simpl in Hj; [lia|]. simpl.
    pose proof (H 0 ltac:(lia)) as H0. simpl in H0. fold fin.
    destruct (filter fin (prefix idx k)) as [|f fs] eqn:E; [congruence|].
    destruct j as [|j]; simpl; [now rewrite E|].
    apply IH; [lia|]. intros j' Hj'. apply (H (S j')). lia.
  Qed.
End Voters.

Lemma voters_ext {V} {N : Num V} (row row' : list V) sh ks : forall j idx,
  (forall j l, Permutation (sh j l) l) ->
  (forall x, In x idx -> nisfin (nth x row nnan) = nisfin (nth x row' nnan)) ->
  knn_voters row sh j ks idx = knn_voters row' sh j ks idx.
Proof.
  induction ks as [|k ks IH]; intros j idx SH H; simpl; [reflexivity|].
  rewrite (filter_ext_in (fun x => nisfin (nth x row nnan)) (fun x => nisfin (nth x row' nnan)))
    by (intros x Hx; apply H; eapply prefix_incl; eauto).
  destruct (filter _ (prefix idx k)).
  - f_equal. apply IH; [assumption|]. intros x Hx. apply H. eapply Permutation_in; [apply SH|]; eauto.
  - f_equal. now apply IH.
Qed.

Lemma idx_ext {V} {N : Num V} argsort metric (row row' : list V) rp :
  (forall x, In x rp -> nth x row nnan = nth x row' nnan) ->
  knn_idx argsort metric row rp = knn_idx argsort metric row' rp.
Proof.
  intros H. unfold knn_idx.
  replace (take nnan row' rp) with (take nnan row rp); [reflexivity|].
  unfold take. apply map_ext_in. auto.
Qed.

(** ** the accumulation loop *)
Section Acc.
  Context {V : Type} {N : Num V}.
  Variables (n : nat) (cls : nat -> nat).

  Fixpoint acc_rep (c : nat) : V :=
    match c with 0 => n0 | S c' => nadd (acc_rep c') (ndiv n1 (nofnat n)) end.

  Lemma zip_upd_length i seed ps (st : list (@kst V)) : length ps = length st ->
    length (zip_upd n i seed ps st) = length st.
  Proof.
    revert st. induction ps as [|p ps IH]; intros [|s st] H; simpl in *; try lia.
    rewrite IH; lia.
  Qed.
  Lemma zip_upd_nth i seed ps (st : list (@kst V)) j : length ps = length st -> j < length st ->
    nth j (zip_upd n i seed ps st) kst0 = kst_upd n i seed (nth j ps 0) (nth j st kst0).
  Proof.
    revert st j. induction ps as [|p ps IH]; intros [|s st] j H Hj; simpl in *; try lia.
    destruct j; [reflexivity|]. apply IH; lia.
  Qed.

  Lemma fold_zip (preds : nat -> list nat) m points : (forall i, length (preds i) = m) ->
    forall st, length st = m ->
    length (fold_left (fun st i => zip_upd n i (cls i) (preds i) st) points st) = m /\
    forall j, j < m ->
    nth j (fold_left (fun st i => zip_upd n i (cls i) (preds i) st) points st) kst0 =
    fold_left (fun s i => kst_upd n i (cls i) (nth j (preds i) 0) s) points (nth j st (@kst0 V N)).
  Proof.
    intros Hp. induction points as [|i points IH]; intros st Hst; simpl; [auto|].
    destruct (IH (zip_upd n i (cls i) (preds i) st)) as (L & E).
    { rewrite zip_upd_length; rewrite ?Hp; auto. }
    split; [assumption|]. intros j Hj. rewrite E by assumption.
    now rewrite zip_upd_nth by (rewrite ?Hp; lia).
  Qed.

  Lemma fold_upd (p : nat -> nat) points : forall s c, k_acc s = acc_rep c ->
    let s' := fold_left (fun s i => kst_upd n i (cls i) (p i) s) points s in
    k_acc s' = acc_rep (cnt (fun i => cls i =? p i) points + c) /\
    (forall x, k_corr s' x = existsb (fun i => (x =? i) && (cls i =? p i)) points || k_corr s x) /\
    (forall a b, k_cmat s' a b = cnt (fun i => (cls i =? a) && (p i =? b)) points + k_cmat s a b).
  Proof.
    induction points as [|i points IH]; intros s c Hc; simpl; [auto|].
    destruct (IH (kst_upd n i (cls i) (p i) s) ((if cls i =? p i then 1 else 0) + c)) as (E1 & E2 & E3).
    { unfold kst_upd. simpl. destruct (cls i =? p i); simpl; [now rewrite Hc|assumption]. }
    split; [|split].
    - rewrite E1, cnt_cons. f_equal. lia.
    - intros x. rewrite E2. unfold kst_upd. simpl. destruct (cls i =? p i), (Nat.eqb_spec x i); simpl;
        rewrite ?orb_true_r, ?orb_false_r, ?andb_false_r, ?andb_true_r; auto.
    - intros a b. rewrite E3, cnt_cons. unfold kst_upd. simpl.
      rewrite (Nat.eqb_sym a (cls i)), (Nat.eqb_sym b (p i)).
      destruct ((cls i =? a) && (p i =? b)); simpl; lia.
  Qed.
End Acc.

(** ** what the accumulated outputs mean *)
Lemma map_nth_seq {A B} (g : A -> B) (cl : list A) d :
  map (fun b => g (nth b cl d)) (seq 0 (length cl)) = map g cl.
Proof.
  induction cl as [|x cl IH]; [reflexivity|]. simpl. f_equal.
  rewrite <- IH, <- seq_shift, map_map. reflexivity.
Qed.

Lemma sum_classes (cl : list Z) (q : nat -> bool) (pred : nat -> Z) points : NoDup cl ->
  (forall i, In i points -> q i = true -> In (pred i) cl) ->
  sum_nat (map (fun b => cnt (fun i => q i && (pred i =? nth b cl 0)%Z) points) (seq 0 (length cl))) =
  cnt q points.
Proof.
  intros Hn. induction points as [|i points IH]; intros H.
  - apply sum_nat_zero. reflexivity.
  - rewrite cnt_cons, <- IH by (intros; apply H; auto; now right).
    rewrite (map_ext _ (fun b => (if q i && (pred i =? nth b cl 0)%Z then 1 else 0) +
       cnt (fun i => q i && (pred i =? nth b cl 0)%Z) points)) by (intros b; now rewrite cnt_cons).
    rewrite sum_nat_map_add. f_equal.
    rewrite (map_nth_seq (fun c => if q i && (pred i =? c)%Z then 1 else 0) cl 0%Z).
    destruct (q i) eqn:E; simpl.
    + apply sum_indicator_Z; [assumption|]. apply H; [now left|assumption].
    + now apply sum_nat_zero.
Qed.

Lemma describes_sums points lab cl pred corr cmat : NoDup cl ->
  describes points lab cl pred corr cmat ->
  (forall i, In i points -> In (lab i) cl) ->
  sum_nat (map (fun a => sum_nat (map (cmat a) (seq 0 (length cl)))) (seq 0 (length cl))) = length points /\
  (forall a, a < length cl -> sum_nat (map (cmat a) (seq 0 (length cl))) =
     length (filter (fun i => (lab i =? nth a cl 0)%Z) points)) /\
  sum_nat (map (fun a => cmat a a) (seq 0 (length cl))) = length (filter corr points).
Proof.
  intros Hn [Dc Do Dm Dp] Hl.
  assert (R : forall a, a < length cl -> sum_nat (map (cmat a) (seq 0 (length cl))) =
     cnt (fun i => (lab i =? nth a cl 0)%Z) points).
  { intros a Ha. rewrite <- (sum_classes cl (fun i => (lab i =? nth a cl 0)%Z) pred points) by auto.
    apply sum_nat_ext. intros b Hb. apply in_seq in Hb. rewrite Dm by lia. reflexivity. }
  split; [|split].
  - rewrite (sum_nat_ext _ (fun a => cnt (fun i => true && (lab i =? nth a cl 0)%Z) points))
      by (intros a Ha; apply in_seq in Ha; rewrite R by lia; reflexivity).
    rewrite sum_classes by auto. unfold cnt. now rewrite filter_true_in.
  - intros a Ha. now apply R.
  - rewrite (sum_nat_ext _ (fun a => cnt (fun i => (lab i =? pred i)%Z && (pred i =? nth a cl 0)%Z) points)).
    + rewrite sum_classes by auto. unfold cnt. f_equal. apply filter_ext_in. intros i Hi. now rewrite Dc.
    + intros a Ha. apply in_seq in Ha. rewrite Dm by lia. unfold cnt. f_equal. apply filter_ext.
      intros i. destruct (Z.eqb_spec (pred i) (nth a cl 0%Z)) as [->|]; [reflexivity|]. now rewrite !andb_false_r.
Qed.

Section Desc.
  Context {V : Type} {N : Num V}.

  Lemma fold_describes n points (lab : list Z) (preds : nat -> list nat) (ks : list Z) :
    let cl := unique_labels lab in
    let classes := map (class_index cl) lab in
    (forall i, length (preds i) = length ks) ->
    (forall i, In i points -> i < length lab) ->
    (forall i j, In i points -> j < length ks -> nth j (preds i) 0 < length cl) ->
    let out := fold_left (fun st i => zip_upd n i (nth i classes 0) (preds i) st) points
                 (map (fun _ => @kst0 V N) ks) in
    length out = length ks /\
    forall j s, nth_error out j = Some s ->
      let pred := fun i => nth (nth j (preds i) 0) cl 0%Z in
      describes points (fun i => nth i lab 0%Z) cl pred (k_corr s) (k_cmat s) /\
      k_acc s = acc_rep n (cnt (fun i => (nth i lab 0 =? pred i)%Z) points).
  Proof.
    intros cl classes HL HI HP out.
    destruct (fold_zip (V:=V) n (fun i => nth i classes 0) preds (length ks) points HL
                (map (fun _ => kst0) ks) ltac:(now rewrite map_length)) as (L & E).
    fold out in L, E. split; [assumption|]. intros j s Hs pred.
    assert (Hj : j < length ks). { rewrite <- L. apply nth_error_Some. congruence. }
    specialize (E j Hj). rewrite (nth_error_nth _ _ _ Hs) in E.
    assert (E0 : nth j (map (fun _ => @kst0 V N) ks) kst0 = kst0).
    { clear. revert j. induction ks; destruct j; simpl; auto. }
    rewrite E0 in E. clear E0.
    destruct (fold_upd (V:=V) n (fun i => nth i classes 0) (fun i => nth j (preds i) 0) points kst0 0 eq_refl)
      as (A & B & C). rewrite <- E in A, B, C. rewrite Nat.add_0_r in A.
    assert (Hin : forall i, In i points -> In (nth i lab 0%Z) cl) by (intros i Hi; apply unique_In, nth_In; auto).
    assert (Hc : forall i, In i points -> nth i classes 0 = class_index cl (nth i lab 0%Z)).
    { intros i Hi. unfold classes. rewrite nth_indep with (d' := class_index cl 0%Z) by (rewrite map_length; auto).
      apply map_nth. }
    assert (Hcn : NoDup cl) by apply unique_NoDup.
    assert (HQ : forall i b, In i points -> b < length cl ->
      (nth i classes 0 =? b) = (nth i lab 0 =? nth b cl 0)%Z).
    { intros i b Hi Hb. rewrite Hc by assumption.
      destruct (Nat.eqb_spec (class_index cl (nth i lab 0%Z)) b) as [<-|Hne].
      - rewrite class_index_nth by auto. symmetry. apply Z.eqb_refl.
      - symmetry. apply Z.eqb_neq. intros E'. apply Hne. rewrite E'. now apply class_index_of_nth. }
    assert (HR : forall i b, In i points -> b < length cl ->
      (nth j (preds i) 0 =? b) = (pred i =? nth b cl 0)%Z).
    { intros i b Hi Hb. unfold pred. destruct (Nat.eqb_spec (nth j (preds i) 0) b) as [->|Hne].
      - symmetry. apply Z.eqb_refl.
      - symmetry. apply Z.eqb_neq. intros E'. apply Hne.
        apply (proj1 (NoDup_nth cl 0%Z) Hcn); auto. }
    assert (HX : forall i, In i points -> (nth i classes 0 =? nth j (preds i) 0) = (nth i lab 0 =? pred i)%Z).
    { intros i Hi. apply HQ; auto. }
    split; [split|].
    - intros i Hi. rewrite B. simpl. rewrite orb_false_r.
      destruct ((nth i lab 0 =? pred i)%Z) eqn:Ei.
      + apply existsb_exists. exists i. split; [assumption|]. now rewrite Nat.eqb_refl, HX.
      + apply not_true_iff_false. intros Ht. apply existsb_exists in Ht. destruct Ht as (x & Hx & Ex).
        apply andb_true_iff in Ex. destruct Ex as (Ex & Ey). apply Nat.eqb_eq in Ex. subst x.
        rewrite HX in Ey by assumption. congruence.
    - intros i Hi. rewrite B. simpl. rewrite orb_false_r. apply not_true_iff_false. intros Ht.
      apply existsb_exists in Ht. destruct Ht as (x & Hx & Ex).
      apply andb_true_iff in Ex. destruct Ex as (Ex & Ey). apply Nat.eqb_eq in Ex. subst x. contradiction.
    - intros a b Ha Hb. rewrite C. simpl. rewrite Nat.add_0_r. unfold cnt. f_equal.
      apply filter_ext_in. intros i Hi. rewrite HQ, HR by auto. reflexivity.
    - intros i Hi. unfold pred. apply nth_In. auto.
    - rewrite A. f_equal. apply cnt_ext. intros i Hi. now apply HX.
  Qed.
End Desc.

(** ** one point *)
Section Point.
  Context {V : Type} {N : Num V} {toX : V -> xr} (CL : CmpLaws V N toX).
  Variable argsort : list V -> list nat.
  Hypothesis AS : argsort_ok argsort.
  Variable rp : nat -> list nat -> list nat.
  Hypothesis RP : forall i l, Permutation (rp i l) l.
  Variable sh : nat -> nat -> list nat -> list nat.
  Hypothesis SH : forall i j l, Permutation (sh i j l) l.

  Section One.
  Variables (metric : string) (sampled : bool) (D : arr2 V) (ks : list Z).
  Variables (cl : list Z) (vclasses : list nat) (cand : list nat) (vl : nat -> Z) (i : nat).
  Hypothesis Hcl : NoDup cl.
  Hypothesis Hne : cl <> [].
  Hypothesis Hcand : NoDup cand.
  Hypothesis Hvc : forall x, In x cand -> nth x vclasses 0 = class_index cl (vl x) /\ In (vl x) cl.

  Let row := knn_row metric sampled D i.
  Let fin x := nisfin (nth x row nnan).
  Let idx := knn_idx argsort metric row (rp i cand).
  Let P := knn_point argsort rp sh metric sampled D ks (length cl) vclasses cand i.

  Lemma point_length : length P = length ks.
  Proof. unfold P, knn_point. now rewrite map_length, voters_length. Qed.

  Lemma point_rank :
    ranking (fun x y => nearer metric (nth x row nnan) (nth y row nnan))
            (fun x => In x cand /\ nisnan (nth x row nnan) = false) idx.
  Proof.
    assert (Hn : NoDup (rp i cand)) by (eapply Permutation_NoDup; [symmetry; apply RP|assumption]).
    destruct (idx_ranking CL argsort AS metric row (rp i cand) Hn) as [A B C].
    split; [exact A| |exact C]. intros x. fold idx in B. rewrite B. split; intros (H1 & H2); split; auto.
    - eapply Permutation_in; [apply RP|exact H1].
    - eapply Permutation_in; [symmetry; apply RP|exact H1].
  Qed.

  Lemma voter_cand nn x : In nn (knn_voters row (sh i) 0 ks idx) -> In x nn -> In x cand.
  Proof.
    intros H Hx. apply (voters_incl row (sh i) (SH i)) in H. apply H in Hx.
    now apply (rk_in _ _ _ point_rank) in Hx.
  Qed.

  Lemma point_nth j : j < length ks ->
    nth j P 0 = knn_vote (length cl) (take 0 vclasses (nth j (knn_voters row (sh i) 0 ks idx) [])).
  Proof.
    intros Hj. unfold P, knn_point. fold row. fold idx.
    rewrite nth_indep with (d' := knn_vote (length cl) (take 0 vclasses []))
      by (now rewrite map_length, voters_length).
    apply (map_nth (fun nn => knn_vote (length cl) (take 0 vclasses nn))).
  Qed.

  Lemma take_classes nn : incl nn cand ->
    (forall c, In c (take 0 vclasses nn) -> c < length cl) /\
    map (fun c => nth c cl 0%Z) (take 0 vclasses nn) = map vl nn.
  Proof.
    intros H. unfold take. split.
    - intros c Hc. apply in_map_iff in Hc. destruct Hc as (x & <- & Hx).
      destruct (Hvc x (H x Hx)) as (-> & Hin). now apply class_index_lt.
    - rewrite map_map. apply map_ext_in. intros x Hx. destruct (Hvc x (H x Hx)) as (-> & Hin).
      now apply class_index_nth.
  Qed.

  Lemma nth_voters j : j < length ks -> incl (nth j (knn_voters row (sh i) 0 ks idx) []) cand.
  Proof.
    intros Hj x Hx. eapply voter_cand; [|exact Hx]. apply nth_In. now rewrite voters_length.
  Qed.

  Lemma point_range j : j < length ks -> nth j P 0 < length cl.
  Proof.
    intros Hj. rewrite point_nth by assumption.
    destruct (take_classes _ (nth_voters j Hj)) as (H & _).
    destruct (take 0 vclasses _) as [|c l] eqn:E.
    - rewrite vote_nil. destruct cl; [congruence|simpl; lia].
    - apply H, vote_in. discriminate.
  Qed.

  (** without voters: the last class; otherwise the class of a voter *)
  Lemma point_from j : j < length ks ->
    nth j P 0 = length cl - 1 \/ exists x, In x cand /\ nth (nth j P 0) cl 0%Z = vl x.
  Proof.
    intros Hj. rewrite point_nth by assumption. pose proof (nth_voters j Hj) as Hi.
    destruct (nth j (knn_voters row (sh i) 0 ks idx) []) as [|x nn] eqn:E.
    - left. apply vote_nil.
    - right. assert (Hv : In (knn_vote (length cl) (take 0 vclasses (x :: nn))) (take 0 vclasses (x :: nn)))
        by (apply vote_in; discriminate).
      unfold take in Hv at 2. apply in_map_iff in Hv. destruct Hv as (y & Ey & Hy).
      exists y. split; [auto|]. rewrite <- Ey. destruct (Hvc y (Hi y Hy)) as (-> & Hin).
      now apply class_index_nth.
  Qed.

  Lemma point_elected j : j < length ks ->
    (forall j', j' <= j -> filter fin (prefix idx (nth j' ks 0%Z)) <> []) ->
    elected (map vl (filter fin (prefix idx (nth j ks 0%Z)))) (nth (nth j P 0) cl 0%Z).
  Proof.
    intros Hj H. rewrite point_nth by assumption. pose proof (nth_voters j Hj) as Hi.
    rewrite (voters_finite row (sh i) ks 0 idx j Hj H) in *.
    change (fun x => nisfin (nth x row nnan)) with fin in Hi |- *.
    destruct (take_classes _ Hi) as (H1 & H2). rewrite <- H2.
    apply vote_elected; [assumption| |assumption].
    specialize (H j (le_n j)). unfold take. destruct (filter fin _); [congruence|discriminate].
  Qed.

  Lemma prefix_head k (h : nat) t l : l = h :: t -> (0 < k)%Z -> exists t', prefix l k = h :: t'.
  Proof.
    intros -> Hk. unfold prefix. replace (k <? 0)%Z with false by (symmetry; apply Z.ltb_ge; lia).
    destruct (Z.to_nat k) eqn:E; [lia|]. exists (firstn n t). reflexivity.
  Qed.

  Lemma point_near j : valid_metric metric = true ->
    (exists x, In x cand /\ nisfin (nth x row nnan) = true) ->
    (forall x, In x cand -> nisfin (nth x row nnan) = true \/ nisnan (nth x row nnan) = true \/
       neq (nth x row nnan) (worst metric) = true) ->
    (forall k, In k ks -> (0 < k)%Z) -> j < length ks ->
    filter fin (prefix idx (nth j ks 0%Z)) <> [].
  Proof.
    intros Hv (x & Hx & Hfx) Hall Hk Hj.
    destruct (rank_head CL metric row _ idx x Hv point_rank) as (h & t & E & Hh).
    - split; [assumption|]. now apply (fin_not_nan CL).
    - assumption.
    - intros y (Hy & Hny). destruct (Hall y Hy) as [|[|]]; auto. congruence.
    - destruct (prefix_head (nth j ks 0%Z) h t idx E) as (t' & ->).
      + apply Hk, nth_In. assumption.
      + simpl. unfold fin at 1. rewrite Hh. discriminate.
  Qed.
  End One.
End Point.
