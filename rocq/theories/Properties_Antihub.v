(** Property C196: an object that is nobody's neighbour can be left out. *)
From Coq Require Import String.
From Coq Require Import ZArith List Arith Lia Bool Permutation Reals Lra.
From Flocq Require Import BinarySingleNaN.
From Verif Require Import Py Num NumT Arr Sort Conc S_Neighbors S_GK S_LS S_SNN S_KNN S_Relabel M_IO M_Hubness M_GK M_LS M_SNN M_KNN.
From Verif Require Import P_Neighbors P_F64 P_Hubness P_HubnessMain P_GK P_GK2 P_SNN P_LS P_LS2 P_LS3 P_KNN P_KNN2 P_KNN3 P_KNN4 P_Relabel P_Relabel2.
From Verif Require Import Properties_Hubness Properties_LS Properties_SNN Properties_KNN Properties_CountAcc Properties_Remote.
Import ListNotations.
Local Open Scope nat_scope.

(** ** Specification *)
(** the objects [i] prefers to object [n] *)
Definition ahead {V} {N : Num V} (D : arr2 V) (i n : nat) : list nat :=
  filter (fun x => negb (x =? i) && nlt (at2 D i x) (at2 D i n)) (seq 0 n).
(** all objects of [D] have at least [k] others nearer than the last object of [D'] *)
Definition nobodys_neighbour {V} {N : Num V} (D' D : arr2 V) (k : nat) : Prop :=
  forall i, i < nrow D -> k <= length (ahead D' i (nrow D)).

(** ** The neighbourhood of one object *)
Lemma missing (A l : list nat) y : NoDup A -> NoDup l -> In y l -> ~ In y A -> length l <= length A -> exists x, In x A /\ ~ In x l.
Proof.
  intros NA Nl Hy Hn Hle. destruct (Forall_Exists_dec (fun x => In x l) (fun x => in_dec Nat.eq_dec x l) A) as [F|E].
  - exfalso. rewrite Forall_forall in F. assert (length (y :: A) <= length l); [|cbn [length] in *; lia].
    apply NoDup_incl_length; [now constructor|]. intros x [<-|Hx]; auto.
  - apply Exists_exists in E. exact E.
Qed.
Lemma ahead_lt {V} {N : Num V} (D : arr2 V) i n : i < n -> length (ahead D i n) < n.
Proof.
  intros Hi. assert (L : length (i :: ahead D i n) <= length (seq 0 n)); [|rewrite seq_length in L; exact L].
  apply NoDup_incl_length.
  - constructor; [|apply NoDup_filter, seq_NoDup]. intros H. apply filter_In in H as (_ & H). rewrite Nat.eqb_refl in H. discriminate.
  - intros x [<-|Hx]; [apply in_seq; lia|]. now apply filter_In in Hx.
Qed.

Definition ranked (D : arr2 f64) i x y : bool := nearer "distance" (rank_value "distance" D i x) (rank_value "distance" D i y).

Lemma ranked_nlt D i x y : ranked D i x y = nlt (rank_value "distance" D i x) (rank_value "distance" D i y).
Proof. reflexivity. Qed.
Lemma rank_other (D : arr2 f64) i x : x <> i -> rank_value "distance" D i x = at2 D i x.
Proof. intros H. unfold rank_value. now rewrite (proj2 (Nat.eqb_neq x i)). Qed.

Section Row.
  Variables (D D' : arr2 f64) (k i : nat).
  Hypothesis Ex : extends D' D.
  Hypothesis Ah : k <= length (ahead D' i (nrow D)).
  Hypothesis Hi : i < nrow D.

  Lemma ranked_old x y : x < nrow D -> y < nrow D -> ranked D' i x y = ranked D i x y.
  Proof. destruct Ex as (_ & _ & _ & E). intros Hx Hy. unfold ranked, rank_value. now rewrite !E. Qed.

  Lemma new_is_last l y : length l = k -> NoDup l -> (forall x, In x l -> x < nrow D) ->
    (forall x y, x < nrow D -> ~ In x l -> In y l -> ranked D i x y = false) -> In y l -> ranked D' i (nrow D) y = false.
  Proof.
    intros Hl Nd Rg Bs Hy. destruct (ranked D' i (nrow D) y) eqn:Q; [exfalso|reflexivity].
    assert (Qn : nlt (at2 D' i (nrow D)) (rank_value "distance" D' i y) = true).
    { rewrite ranked_nlt, (rank_other _ _ (nrow D)) in Q by lia. exact Q. }
    destruct (missing (ahead D' i (nrow D)) l y) as (x & Hx & Hnx); [apply NoDup_filter, seq_NoDup|exact Nd|exact Hy| |lia|].
    - intros H. apply filter_In in H as (_ & H). apply andb_prop in H as (H1 & H2). apply negb_true_iff, Nat.eqb_neq in H1.
      rewrite rank_other in Qn by assumption. rewrite (nlt_asym f64_cmp _ _ H2) in Qn. discriminate.
    - apply filter_In in Hx as (Hx & H). apply in_seq in Hx. apply andb_prop in H as (H1 & H2). apply negb_true_iff, Nat.eqb_neq in H1.
      specialize (Bs x y ltac:(lia) Hnx Hy). rewrite <- ranked_old in Bs by (auto; lia). rewrite ranked_nlt, (rank_other _ _ x) in Bs by assumption. rewrite (nlt_trans f64_cmp _ _ _ H2 Qn) in Bs. discriminate.
  Qed.

  Lemma kset_extends l : kset (ranked D i) (nrow D) k l -> kset (ranked D' i) (S (nrow D)) k l.
  Proof.
    intros [k1 k2 k3 k4]. constructor; [exact k1|exact k2|intros x Hx; specialize (k3 x Hx); lia|].
    intros x y Hx Hnx Hy. destruct (Nat.eq_dec x (nrow D)) as [->|Hn].
    - now apply (new_is_last l).
    - rewrite ranked_old by (auto; lia). apply k4; auto. lia.
  Qed.
  Lemma knn_extends l : knn_list (ranked D i) (nrow D) k l -> knn_list (ranked D' i) (S (nrow D)) k l.
  Proof.
    intros [l1 l2 l3 l4 l5].
    assert (K : kset (ranked D' i) (S (nrow D)) k l) by (apply kset_extends; now constructor).
    destruct K as [k1 k2 k3 k4]. constructor; [exact l1|exact l2|exact k3| |exact k4].
    intros a b Ha Hb. rewrite ranked_old by (apply l3, nth_In; lia). now apply l4.
  Qed.

  Hypothesis Ff : all_finite D'.
  Hypothesis Un : untied D'.
  Lemma ranked_total x y : x < S (nrow D) -> y < S (nrow D) -> x <> y -> ranked D' i x y = true \/ ranked D' i y x = true.
  Proof.
    destruct Ex as (_ & R' & _). intros Hx Hy Hne. unfold ranked. apply (rank_total f64_cmp "distance" D' (S (nrow D))); auto; rewrite <- R'; [|exact Un].
    intros a b Ha Hb Hab. apply Ff; auto.
  Qed.
  Lemma same_list l l' : knn_list (ranked D i) (nrow D) k l -> knn_list (ranked D' i) (S (nrow D)) k l' -> l' = l.
  Proof.
    intros K K'. apply (knn_list_unique (ranked D' i) (S (nrow D)) k _ _ (fun _ => true)); auto.
    - now apply knn_extends.
    - intros x y z _ _ _. unfold ranked, nearer. cbn. apply (nlt_trans f64_cmp).
    - intros x _. unfold ranked, nearer. cbn. apply (nlt_irrefl f64_cmp).
    - discriminate.
    - intros x y Hx Hy Hne _ _. now apply ranked_total.
    - unfold count_if. assert (T : forall s : list nat, filter (fun _ => true) s = s) by (induction s; cbn; congruence). rewrite T, seq_length.
      pose proof (ahead_lt D' i (nrow D) Hi). lia.
  Qed.
  Lemma same_set l l' : kset (ranked D i) (nrow D) k l -> kset (ranked D' i) (S (nrow D)) k l' -> forall x, In x l' <-> In x l.
  Proof.
    intros K K' x. apply kset_extends in K. split; intros Hx.
    - exact (kset_unique _ _ _ _ _ ranked_total K' K x Hx).
    - exact (kset_unique _ _ _ _ _ ranked_total K K' x Hx).
  Qed.
End Row.

Lemma knn_ext (b b' : nat -> nat -> bool) m k l : (forall x y, x < m -> y < m -> b x y = b' x y) -> knn_list b m k l -> knn_list b' m k l.
Proof.
  intros H [l1 l2 l3 l4 l5]. constructor; [exact l1|exact l2|exact l3| |].
  - intros a c Ha Hc. rewrite <- H by (apply l3, nth_In; lia). now apply l4.
  - intros x y Hx Hn Hy. rewrite <- H by auto. now apply l5.
Qed.
Lemma eff_ranked (D : arr2 f64) i : nrow D = ncol D -> all_finite D -> i < nrow D -> forall x, x < nrow D ->
  eff "distance" D i x = rank_value "distance" D i x.
Proof.
  intros Hsq Hf Hi x Hx. unfold eff, rank_value. rewrite usable_sq by assumption. destruct (Nat.eqb_spec x i); [now rewrite andb_false_r|]. now rewrite Hf by auto.
Qed.

(** ** Hubness *)
Theorem C196_hubness :
  forall (argpart argpart' : list f64 -> list nat -> list nat), argpart_ok argpart -> argpart_ok argpart' ->
  forall sparse sparse' (D D' : arr2 f64) (k : nat) se se' rps rps',
    extends D' D -> nobodys_neighbour D' D k -> all_finite D' -> untied D' -> 0 < k -> 0 < nrow D ->
    (forall i, i < nrow D -> Permutation (rps i) (seq 0 (ncol D))) ->
    (forall i, i < nrow D' -> Permutation (rps' i) (seq 0 (ncol D'))) ->
    exists o o', hubness_serial argpart sparse D (Z.of_nat k) "distance" se rps = Ok o /\
      hubness_serial argpart' sparse' D' (Z.of_nat k) "distance" se' rps' = Ok o' /\
      (forall i, i < nrow D -> nth i (out_Dk o') [] = nth i (out_Dk o) []) /\
      nth (nrow D) (out_Nk o') 0 = 0.
Proof.
  intros argpart argpart' AP AP' sparse sparse' D D' k se se' rps rps' Ex Ah Ff Un Hk Hn0 Hrp Hrp'.
  pose proof Ex as (Hsq & R' & C' & E). set (n := nrow D) in *.
  assert (Hkn : k < n) by (pose proof (Ah 0 Hn0); pose proof (ahead_lt D' 0 n Hn0); fold n in H; lia).
  assert (Ff0 : all_finite D) by (intros i j Hi Hj Hne; rewrite <- E by assumption; apply Ff; fold n in Hi, Hj; lia).
  destruct (C02_serial_neighbours_are_nearest argpart AP sparse D k "distance" se rps eq_refl) as (o & Ho & L & Nk & K); [lia|now left|now rewrite <- Hsq in *|].
  destruct (C02_serial_neighbours_are_nearest argpart' AP' sparse' D' k "distance" se' rps' eq_refl) as (o' & Ho' & L' & Nk' & K'); [lia|left; lia|assumption|].
  exists o, o'. split; [exact Ho|]. split; [exact Ho'|]. fold n in K, L. rewrite <- Hsq in K, Nk. rewrite R' in K', L'. rewrite C' in K', Nk'.
  rewrite Nat.min_l in K by lia. rewrite Nat.min_l in K' by lia.
  assert (J : forall i, i < n -> knn_list (ranked D i) n k (nth i (out_Dk o) [])).
  { intros i Hi. apply (knn_ext _ _ _ _ _ (fun x y Hx Hy => f_equal2 (nearer "distance") (eff_ranked D i Hsq Ff0 Hi x Hx) (eff_ranked D i Hsq Ff0 Hi y Hy)) (K i Hi)). }
  assert (J' : forall i, i < S n -> knn_list (ranked D' i) (S n) k (nth i (out_Dk o') [])).
  { intros i Hi. specialize (K' i Hi). revert K'. apply knn_ext. intros x y Hx Hy. unfold ranked. rewrite !eff_ranked by (assumption || lia). reflexivity. }
  assert (Eq : forall i, i < n -> nth i (out_Dk o') [] = nth i (out_Dk o) []).
  { intros i Hi. apply (same_list D D' k i Ex (Ah i Hi) Hi Ff Un); [now apply J|apply J'; lia]. }
  split; [exact Eq|]. rewrite Nk', bincount_nth.
  - apply count_occ_not_In. intros Hx. apply in_concat in Hx as (l & Hl & Hx). apply (In_nth _ _ []) in Hl as (i & Hi & <-). destruct (Nat.eq_dec i n) as [->|Hin].
    + assert (U : usable "distance" D' n n = true).
      { apply (knn_list_usable _ _ _ _ (usable "distance" D' n) (K' n ltac:(lia))); [| |exact Hx].
        - intros x y _ _ Hux Huy. unfold eff. rewrite Hux, Huy. unfold nearer, worst. cbn. apply (fin_lt_inf f64_cmp). unfold usable in Hux. now apply andb_prop in Hux as (Hux & _).
        - rewrite <- R'. rewrite count_others by (assumption || lia). lia. }
      rewrite usable_sq, Nat.eqb_refl, andb_false_r in U by lia. discriminate.
    + rewrite Eq in Hx by lia. apply (knn_range _ _ _ _ (K i ltac:(lia))) in Hx. lia.
  - intros x Hx. apply in_concat in Hx as (l & Hl & Hx). apply (In_nth _ _ []) in Hl as (i & Hi & <-). apply (knn_range _ _ _ _ (K' i ltac:(lia)) x Hx).
  - lia.
Qed.

(** ** Shared neighbours *)
Theorem C196_shared_neighbours :
  forall (argpart argpart' : list f64 -> list nat -> list nat), argpart_ok argpart -> argpart_ok argpart' ->
  forall (D D' : arr2 f64) k,
    extends D' D -> nobodys_neighbour D' D k -> all_finite D' -> untied D' -> 0 < k -> 0 < nrow D -> (Z.of_nat k <= 2 ^ 53)%Z ->
    exists M M', snn_serial argpart D (Z.of_nat k) "distance" = Ok M /\ snn_serial argpart' D' (Z.of_nat k) "distance" = Ok M' /\
      forall i j, i < nrow D -> j < nrow D -> at2 M' i j = at2 M i j.
Proof.
  intros argpart argpart' AP AP' D D' k Ex Ah Ff Un Hk Hn0 Hb. pose proof Ex as (Hsq & R' & C' & E). set (n := nrow D) in *.
  assert (Hkn : k < n) by (pose proof (Ah 0 Hn0); pose proof (ahead_lt D' 0 n Hn0); fold n in H; lia).
  destruct (C14_snn_formula argpart AP "distance" D k eq_refl Hsq Hk Hb ltac:(left; fold n; lia)) as (M & hood & HM & _ & _ & K & Dg & A).
  destruct (C14_snn_formula argpart' AP' "distance" D' k eq_refl ltac:(lia) Hk Hb ltac:(left; lia)) as (M' & hood' & HM' & _ & _ & K' & Dg' & A').
  exists M, M'. split; [exact HM|]. split; [exact HM'|]. fold n in K, Dg, A. rewrite R' in K', Dg', A'.
  assert (Hs : forall i, i < n -> forall x, In x (hood' i) <-> In x (hood i)).
  { intros i Hi. apply (same_set D D' k i Ex (Ah i Hi) Hi Ff Un); [apply (proj1 (K i Hi))|apply (proj1 (K' i ltac:(lia)))]. }
  intros i j Hi Hj. destruct (Nat.eq_dec i j) as [->|Hne]; [now rewrite Dg, Dg' by lia|].
  rewrite (proj1 (A i j Hi Hj Hne) eq_refl), (proj1 (A' i j ltac:(lia) ltac:(lia) Hne) eq_refl). do 3 f_equal.
  apply (overlap_renamed (S n) (fun x => x) (fun x => x)).
  - intros x Hx. auto.
  - apply (K i Hi).
  - apply (K' i ltac:(lia)).
  - intros x Hx. apply (ks_range _ _ _ _ (proj1 (K i Hi))) in Hx. lia.
  - intros x Hx. apply (ks_range _ _ _ _ (proj1 (K' i ltac:(lia)))) in Hx. lia.
  - intros x _. now apply Hs.
  - intros x _. now apply Hs.
Qed.

(** ** Local scaling, ties allowed *)
Theorem C196_local_scaling :
  forall part part' (D D' : arr2 xr) (k : nat) cpu cpu' n_jobs n_jobs' L L',
    part_ok part -> part_ok part' -> extends D' D -> nobodys_neighbour D' D k -> all_finite D' ->
    0 < k -> 0 < nrow D -> (1 <= workers cpu n_jobs)%Z -> (1 <= workers cpu' n_jobs')%Z ->
    local_scaling xexp part D (Z.of_nat k) "distance" None cpu n_jobs (Ok L) ->
    local_scaling xexp part' D' (Z.of_nat k) "distance" None cpu' n_jobs' (Ok L') ->
    forall i j, i < nrow D -> j < nrow D -> at2 L' i j = at2 L i j.
Proof.
  intros part part' D D' k cpu cpu' nj nj' L L' PO PO' (Hsq & R' & C' & E) Ah Ff Hk Hn0 Hw Hw' HL HL'. set (n := nrow D) in *.
  assert (Hkn : k < n) by (pose proof (Ah 0 Hn0); pose proof (ahead_lt D' 0 n Hn0); fold n in H; lia).
  assert (Ff0 : all_finite D) by (intros i j Hi Hj Hne; rewrite <- E by assumption; apply Ff; fold n in Hi, Hj; lia).
  destruct (ls_radii_dist xr_cmp part D k None PO Hsq Ff0) as (rs & Er & K); [cbn [training]; rewrite seq_length; fold n; lia|].
  destruct (ls_radii_dist xr_cmp part' D' k None PO' ltac:(lia) Ff) as (rs' & Er' & K'); [cbn [training]; rewrite seq_length; lia|].
  apply ls_outcome in HL; [|exact Hw]. rewrite Er in HL. destruct HL as (L0 & E0 & _ & _ & A). injection E0 as <-.
  apply ls_outcome in HL'; [|exact Hw']. rewrite Er' in HL'. destruct HL' as (L0 & E0 & _ & _ & A'). injection E0 as <-.
  fold n in A, K. rewrite R' in A', K'. cbn [training] in K, K'.
  assert (Rr : forall a, a < n -> nth a rs' nnan = nth a rs nnan).
  { intros a Ha. apply (kth_smallest_unique (S_LS.others D' (seq 0 (S n)) a) k); [apply K'; lia|].
    assert (Eo : S_LS.others D' (seq 0 (S n)) a = (S_LS.others D (seq 0 n) a ++ [at2 D' a n])%list).
    { unfold S_LS.others. rewrite seq_S, filter_app, map_app. cbn [filter plus]. replace (n =? a) with false by (symmetry; apply Nat.eqb_neq; lia). cbn [negb map]. f_equal.
      apply map_ext_in. intros x Hx. apply filter_In in Hx as (Hx & _). apply in_seq in Hx. apply E; lia. }
    rewrite Eo. destruct (K a Ha) as (Kin & Kc). set (v := nth a rs nnan) in *.
    assert (Hv : nlt (at2 D' a n) v = false).
    { destruct (nlt (at2 D' a n) v) eqn:Q; [exfalso|reflexivity]. pose proof (Ah a Ha) as Hc. fold n in Hc.
      assert (Sub : length (ahead D' a n) <= length (filter (fun x => nlt x v) (S_LS.others D (seq 0 n) a))); [|lia].
      unfold S_LS.others, ahead. assert (G : forall s, (forall x, In x s -> x < n) -> length (filter (fun x => negb (x =? a) && nlt (at2 D' a x) (at2 D' a n)) s) <=
        length (filter (fun x => nlt x v) (map (fun x => at2 D a x) (filter (fun x => negb (x =? a)) s)))).
      { induction s as [|x s IH]; intros Hs; [apply le_n|]. cbn [filter]. assert (Hx := Hs x (or_introl eq_refl)). specialize (IH (fun y Hy => Hs y (or_intror Hy))).
        destruct (negb (x =? a)); cbn [andb map filter]; [|exact IH]. destruct (nlt (at2 D' a x) (at2 D' a n)) eqn:Q2.
        - rewrite E in Q2 by assumption. rewrite (nlt_trans xr_cmp _ _ _ Q2 Q). cbn [length]. lia.
        - destruct (nlt (at2 D a x) v); cbn [length]; lia. }
      apply G. intros x Hx. apply in_seq in Hx. lia. }
    split; [apply in_app_iff; now left|]. rewrite !filter_app, !app_length. cbn [filter].
    rewrite Hv. cbn [length]. lia. }
  intros i j Hi Hj. destruct (A i j Hi Hj) as (A1 & A2). destruct (A' i j ltac:(lia) ltac:(lia)) as (A1' & A2').
  destruct (Nat.eq_dec i j) as [Eij|Hne]; [now rewrite A1, A1' by assumption|].
  rewrite (maybe0_xr _ _ (A2 Hne)), (maybe0_xr _ _ (A2' Hne)). unfold ls_cell. rewrite !Rr by lia. now rewrite E by lia.
Qed.

(** ** k-nearest-neighbour classification, each object left out in turn *)
Lemma ranking_firstn (b : nat -> nat -> bool) m k l : ranking b (fun x => x < m) l -> k <= m -> knn_list b m k (firstn k l).
Proof.
  intros [R1 R2 R3] Hk.
  assert (L : length l = m).
  { rewrite <- (seq_length m 0). apply Permutation_length, NoDup_Permutation; [exact R1|apply seq_NoDup|]. intros x. rewrite R2, in_seq. lia. }
  assert (Nt : forall a, a < k -> nth a (firstn k l) 0 = nth a l 0).
  { intros a Ha. rewrite <- (firstn_skipn k l) at 2. symmetry. apply app_nth1. rewrite firstn_length. lia. }
  constructor.
  - rewrite firstn_length. lia.
  - revert R1. clear. revert k. induction l as [|a l IH]; intros [|k] H; cbn [firstn]; try constructor; inversion H; subst; [|now apply IH].
    intros Hi. apply H2. rewrite <- (firstn_skipn k l). apply in_app_iff. now left.
  - intros x Hx. apply R2. rewrite <- (firstn_skipn k l). apply in_app_iff. now left.
  - intros a c Ha Hc. rewrite !Nt by lia. apply R3; lia.
  - intros x y Hx Hn Hy. apply R2 in Hx. apply (In_nth _ _ 0) in Hx as (p & Hp & <-). apply (In_nth _ _ 0) in Hy as (q & Hq & <-).
    rewrite firstn_length in Hq. rewrite Nt by lia. apply R3; [|lia]. destruct (Nat.lt_ge_cases p k) as [H|H]; [|lia].
    exfalso. apply Hn. rewrite <- Nt by exact H. apply nth_In. rewrite firstn_length. lia.
Qed.
Lemma ranking_cand (b : nat -> nat -> bool) (c c' : nat -> Prop) l : (forall x, c x <-> c' x) -> ranking b c l -> ranking b c' l.
Proof. intros H [R1 R2 R3]. constructor; [exact R1|intros x; now rewrite R2|exact R3]. Qed.

Theorem C196_classification :
  forall argsort argsort', argsort_ok argsort -> argsort_ok argsort' ->
  forall rp rp', (forall i l, Permutation (rp i l) l) -> (forall i l, Permutation (rp' i l) l) ->
  forall sh sh', (forall (i j : nat) l, Permutation (sh i j l) l) -> (forall (i j : nat) l, Permutation (sh' i j l) l) ->
  forall (D D' : arr2 f64) lab c ks,
    extends D' D -> all_finite D' -> untied D' -> 0 < nrow D -> length lab = nrow D ->
    (forall k, In k ks -> 0 < k /\ nobodys_neighbour D' D k) ->
    exists out out', score argsort rp sh D lab (map Z.of_nat ks) "distance" None None = Ok out /\
      score argsort' rp' sh' D' (lab ++ [c]) (map Z.of_nat ks) "distance" None None = Ok out' /\
      length out = length ks /\ length out' = length ks /\
      forall j s s', nth_error out j = Some s -> nth_error out' j = Some s' ->
        forall i, i < nrow D -> k_corr s' i = k_corr s i.
Proof.
  intros argsort argsort' AS AS' rp rp' RP RP' sh sh' SH SH' D D' lab c ks Ex Ff Un Hn0 HL Hks.
  pose proof Ex as (Hsq & R' & C' & E). set (n := nrow D) in *.
  assert (Ff0 : all_finite D) by (intros i j Hi Hj Hne; rewrite <- E by assumption; apply Ff; fold n in Hi, Hj; lia).
  assert (Ds : forall l, distinct_sorted l (unique_labels l)) by (intros l; split; [apply unique_sorted|intros z; now rewrite unique_In]).
  destruct (C23_majority argsort AS rp RP sh SH D lab ks "distance" _ Hsq HL eq_refl (Ds lab)) as (out & pred & idx & Eo & L & Hd & Hp).
  destruct (C23_majority argsort' AS' rp' RP' sh' SH' D' (lab ++ [c]) ks "distance" _ ltac:(lia) ltac:(rewrite app_length; cbn [length]; lia) eq_refl (Ds _)) as (out' & pred' & idx' & Eo' & L' & Hd' & Hp').
  exists out, out'. split; [exact Eo|]. split; [exact Eo'|]. split; [exact L|]. split; [exact L'|].
  intros j s s' Hs Hs' i Hi. assert (Hj : j < length ks) by (rewrite <- L; apply nth_error_Some; congruence).
  rewrite (de_corr _ _ _ _ _ _ (Hd j s Hs) i) by (apply in_seq; fold n; lia).
  rewrite (de_corr _ _ _ _ _ _ (Hd' j s' Hs') i) by (apply in_seq; lia).
  rewrite app_nth1 by lia. f_equal.
  destruct (Hp i Hi) as (Rk & Vo & Ne). destruct (Hp' i ltac:(lia)) as (Rk' & Vo' & Ne'). cbv zeta in Vo, Vo'. fold n in Rk. rewrite R' in Rk'.
  assert (Nan : forall (A : arr2 f64) x, all_finite A -> i < nrow A -> x < nrow A -> nisnan (rank_value "distance" A i x) = false).
  { intros A x Fa Hia Hx. destruct (Nat.eq_dec x i) as [->|Hne]; [unfold rank_value; rewrite Nat.eqb_refl; reflexivity|].
    rewrite rank_other by assumption. specialize (Fa i x Hia Hx ltac:(congruence)). revert Fa. destruct (at2 A i x); cbn; congruence. }
  assert (In_k : forall j', j' < length ks -> In (nth j' ks 0) ks) by (intros; now apply nth_In).
  assert (Sm : forall j', j' < length ks -> firstn (nth j' ks 0) (idx' i) = firstn (nth j' ks 0) (idx i)).
  { intros j' Hj'. destruct (Hks _ (In_k j' Hj')) as (_ & Ah). specialize (Ah i Hi). pose proof (ahead_lt D' i n Hi) as Al. fold n in Ah.
    apply (same_list D D' (nth j' ks 0) i Ex Ah Hi Ff Un); apply ranking_firstn; try (fold n; lia).
    - revert Rk. apply ranking_cand. intros x. fold n. split; [tauto|]. intros Hx. split; [exact Hx|]. now apply Nan.
    - revert Rk'. apply ranking_cand. intros x. fold n. split; [tauto|]. intros Hx. split; [exact Hx|]. apply Nan; lia || assumption. }
  assert (Big : 1 < n). { destruct (Hks _ (In_k j Hj)) as (Hk & Ah). specialize (Ah i Hi). pose proof (ahead_lt D' i n Hi) as Al. fold n in Ah. lia. }
  assert (Hf : forall A : arr2 f64, nrow A = ncol A -> all_finite A -> 1 < nrow A -> i < nrow A -> has_finite_neighbor "distance" A i).
  { intros A Sq Fa H1 H2. split.
    - exists (if i =? 0 then 1 else 0). assert (Hne : (if i =? 0 then 1 else 0) <> i) by (destruct (Nat.eqb_spec i 0); lia).
      assert (Hlt : (if i =? 0 then 1 else 0) < nrow A) by (destruct (i =? 0); lia). split; [lia|]. split; [exact Hne|]. apply Fa; auto.
    - intros x Hx Hne. left. apply Fa; auto. lia. }
  specialize (Vo j Hj). specialize (Vo' j Hj).
  specialize (Ne (Hf D Hsq Ff0 Big Hi) (fun k Hk => proj1 (Hks k Hk))). specialize (Ne' (Hf D' ltac:(lia) Ff ltac:(lia) ltac:(lia)) (fun k Hk => proj1 (Hks k Hk))).
  apply (elected_unique _ _ _ (Vo' (fun j' Hj' => Ne' j' ltac:(lia)))).
  assert (Q : map (fun x => nth x (lab ++ [c]) 0%Z) (filter (fun x => nisfin (rank_value "distance" D' i x)) (firstn (nth j ks 0) (idx' i))) =
    map (fun x => nth x lab 0%Z) (filter (fun x => nisfin (rank_value "distance" D i x)) (firstn (nth j ks 0) (idx i)))).
  { rewrite Sm by exact Hj. assert (Rg : forall x, In x (firstn (nth j ks 0) (idx i)) -> x < n).
    { intros x Hx. apply (rk_in _ _ _ Rk). rewrite <- (firstn_skipn (nth j ks 0) (idx i)). apply in_app_iff. now left. }
    rewrite (filter_ext_in _ (fun x => nisfin (rank_value "distance" D i x))).
    - apply map_ext_in. intros x Hx. apply filter_In in Hx as (Hx & _). apply app_nth1. specialize (Rg x Hx). lia.
    - intros x Hx. specialize (Rg x Hx). unfold rank_value. now rewrite E. }
  rewrite Q. apply Vo. intros j' Hj'. apply Ne. lia.
Qed.

(** ** The hypotheses can be met: two groups on a line and a new object at 9 between them,
    which is among the two nearest of nobody although it is not the farthest from anybody *)
Definition exA : arr2 f64 := line_at [0; 1; 3; 20; 21; 24]%Z.
Definition exA' : arr2 f64 := line_at [0; 1; 3; 20; 21; 24; 9]%Z.
Example C196_case : extends exA' exA /\ nobodys_neighbour exA' exA 1 /\ nobodys_neighbour exA' exA 2 /\ all_finite exA' /\ untied exA' /\
  ~ remote exA' exA.
Proof.
  split; [|split; [|split; [|split; [|split]]]].
  - split; [reflexivity|]. split; [reflexivity|]. split; [reflexivity|]. cbn [exA exA' line_at nrow length]. intros i j Hi Hj.
    destruct i as [|[|[|[|[|[|i]]]]]], j as [|[|[|[|[|[|j]]]]]]; try lia; reflexivity.
  - intros i Hi. cbn [exA line_at nrow length] in *. apply Nat.leb_le. destruct i as [|[|[|[|[|[|i]]]]]]; try lia; vm_compute; reflexivity.
  - intros i Hi. cbn [exA line_at nrow length] in *. apply Nat.leb_le. destruct i as [|[|[|[|[|[|i]]]]]]; try lia; vm_compute; reflexivity.
  - intros i j Hi Hj Hne. cbn [exA' line_at nrow length] in *. destruct i as [|[|[|[|[|[|[|i]]]]]]], j as [|[|[|[|[|[|[|j]]]]]]]; try lia; vm_compute; reflexivity.
  - intros i x y Hi Hx Hy H1 H2 H3. cbn [exA' line_at nrow length] in *.
    destruct i as [|[|[|[|[|[|[|i]]]]]]], x as [|[|[|[|[|[|[|x]]]]]]], y as [|[|[|[|[|[|[|y]]]]]]]; try lia; vm_compute; reflexivity.
  - intros H. specialize (H 0 3). cbn [exA line_at nrow length] in H. specialize (H ltac:(lia) ltac:(lia) ltac:(lia)). vm_compute in H. discriminate.
Qed.

(** for the exact functions: the case of C192, whose new object is nobody's neighbour either *)
Lemma remote_is_nobodys {V} {N : Num V} (D' D : arr2 V) k : extends D' D -> remote D' D -> k < nrow D -> nobodys_neighbour D' D k.
Proof.
  intros (_ & _ & _ & E) Rm Hk i Hi. unfold ahead.
  rewrite (filter_ext_in _ (fun x => negb (x =? i))).
  - pose proof (seq_length (nrow D) 0) as L. assert (NI : In i (seq 0 (nrow D))) by (apply in_seq; lia).
    apply in_split in NI as (l1 & l2 & El). pose proof (seq_NoDup (nrow D) 0) as Nd. rewrite El in *. rewrite app_length in L. cbn [length] in L.
    apply NoDup_remove_2 in Nd. rewrite filter_app. cbn [filter]. rewrite Nat.eqb_refl. cbn [negb].
    assert (G : forall l, ~ In i l -> filter (fun x => negb (x =? i)) l = l).
    { induction l as [|x l IH]; intros H; [reflexivity|]. cbn [filter]. cbn [In] in H. rewrite (proj2 (Nat.eqb_neq x i)) by tauto. cbn [negb]. f_equal. apply IH. tauto. }
    rewrite in_app_iff in Nd. rewrite !G by tauto. rewrite app_length. lia.
  - intros x Hx. apply in_seq in Hx. destruct (Nat.eqb_spec x i) as [->|Hne]; [reflexivity|]. cbn [negb andb]. rewrite E by lia. apply Rm; lia.
Qed.
Example C196_case_exact : extends exX4' exX4 /\ nobodys_neighbour exX4' exX4 2 /\ all_finite exX4' /\ 0 < nrow exX4 /\
  (1 <= workers 4 2)%Z /\ exists L L', local_scaling xexp ref_part exX4 2 "distance" None 4 2 (Ok L) /\
  local_scaling xexp ref_part exX4' 2 "distance" None 4 2 (Ok L').
Proof.
  destruct C192_case_exact as (H1 & H2 & H3 & H4 & H5 & H6). split; [exact H1|]. split; [apply remote_is_nobodys; [exact H1|exact H2|lia]|].
  split; [exact H3|]. split; [cbn; lia|]. split; [exact H5|exact H6].
Qed.

Print Assumptions C196_hubness.
Print Assumptions C196_shared_neighbours.
Print Assumptions C196_local_scaling.
Print Assumptions C196_classification.
