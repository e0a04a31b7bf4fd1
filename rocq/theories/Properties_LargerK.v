(** Property C197: a larger neighbourhood size. *)
From Coq Require Import String.
From Coq Require Import ZArith List Arith Lia Bool Permutation Reals Lra.
From Flocq Require Import BinarySingleNaN.
From Verif Require Import Py Num NumT Arr Sort Conc S_Neighbors S_LS S_SNN S_Relabel M_IO M_Hubness M_LS M_SNN.
From Verif Require Import P_Neighbors P_F64 P_Hubness P_HubnessMain P_SNN P_LS P_LS2 P_LS3 P_Relabel P_Relabel2.
From Verif Require Import Properties_Hubness Properties_LS Properties_SNN Properties_CountAcc Properties_Remote Properties_Dup Properties_Separated Properties_Closer.
Import ListNotations.
Local Open Scope nat_scope.

(** ** Hubness: the shorter list is the beginning of the longer one *)
Lemma firstn_knn (b : nat -> nat -> bool) m k k' l : knn_list b m k' l -> k <= k' -> knn_list b m k (firstn k l).
Proof.
  intros [l1 l2 l3 l4 l5] Hk.
  assert (Nt : forall a, a < k -> nth a (firstn k l) 0 = nth a l 0).
  { intros a Ha. rewrite <- (firstn_skipn k l) at 2. symmetry. apply app_nth1. rewrite firstn_length. lia. }
  assert (Inc : forall x, In x (firstn k l) -> In x l) by (intros x Hx; rewrite <- (firstn_skipn k l); apply in_app_iff; now left).
  constructor.
  - rewrite firstn_length. lia.
  - revert l2. clear. revert k. induction l as [|a l IH]; intros [|k] H; cbn [firstn]; try constructor; inversion H; subst; [|now apply IH].
    intros Hi. apply H2. rewrite <- (firstn_skipn k l). apply in_app_iff. now left.
  - intros x Hx. apply l3. now apply Inc.
  - intros a c Ha Hc. rewrite !Nt by lia. apply l4; lia.
  - intros x y Hx Hn Hy. destruct (in_dec Nat.eq_dec x l) as [I|I]; [|apply l5; auto].
    apply (In_nth _ _ 0) in I as (p & Hp & <-). apply (In_nth _ _ 0) in Hy as (q & Hq & <-).
    rewrite firstn_length in Hq. rewrite Nt by lia. apply l4; [|lia]. destruct (Nat.lt_ge_cases p k) as [H|H]; [|lia].
    exfalso. apply Hn. rewrite <- Nt by exact H. apply nth_In. rewrite firstn_length. lia.
Qed.
Lemma nearer_trans metric (a b c : f64) : nearer metric a b = true -> nearer metric b c = true -> nearer metric a c = true.
Proof. unfold nearer. destruct (is_sim metric); intros H1 H2; [exact (nlt_trans f64_cmp _ _ _ H2 H1)|exact (nlt_trans f64_cmp _ _ _ H1 H2)]. Qed.
Lemma nearer_irrefl metric (a : f64) : nearer metric a a = false.
Proof. unfold nearer. destruct (is_sim metric); apply (nlt_irrefl f64_cmp). Qed.
Lemma eff_rank metric (D : arr2 f64) i x : nrow D = ncol D -> all_finite D -> i < nrow D -> x < nrow D ->
  eff metric D i x = rank_value metric D i x.
Proof.
  intros Hsq Hf Hi Hx. unfold eff, rank_value, usable. rewrite Hsq, Nat.eqb_refl. destruct (Nat.eqb_spec x i); [cbn [negb]; now rewrite andb_false_r|]. now rewrite Hf by auto.
Qed.

Theorem C197_hubness :
  forall (argpart argpart' : list f64 -> list nat -> list nat), argpart_ok argpart -> argpart_ok argpart' ->
  forall sparse sparse' (D : arr2 f64) (k k' : nat) metric se se' rps rps',
    valid_metric metric = true -> nrow D = ncol D -> all_finite D -> untied D -> k <= k' < nrow D ->
    (forall i, i < nrow D -> Permutation (rps i) (seq 0 (ncol D))) ->
    (forall i, i < nrow D -> Permutation (rps' i) (seq 0 (ncol D))) ->
    exists o o', hubness_serial argpart sparse D (Z.of_nat k) metric se rps = Ok o /\
      hubness_serial argpart' sparse' D (Z.of_nat k') metric se' rps' = Ok o' /\
      (forall i, i < nrow D -> nth i (out_Dk o) [] = firstn k (nth i (out_Dk o') [])) /\
      (forall x, x < nrow D -> nth x (out_Nk o) 0 <= nth x (out_Nk o') 0).
Proof.
  intros argpart argpart' AP AP' sparse sparse' D k k' metric se se' rps rps' Hv Hsq Hf Hu Hk Hrp Hrp'. set (n := nrow D) in *.
  destruct (C02_serial_neighbours_are_nearest argpart AP sparse D k metric se rps Hv) as (o & Ho & L & Nk & K); [lia|now left|now rewrite <- Hsq in *|].
  destruct (C02_serial_neighbours_are_nearest argpart' AP' sparse' D k' metric se' rps' Hv) as (o' & Ho' & L' & Nk' & K'); [lia|now left|now rewrite <- Hsq in *|].
  exists o, o'. split; [exact Ho|]. split; [exact Ho'|]. fold n in K, K', L, L'. rewrite <- Hsq in K, K', Nk, Nk'. rewrite Nat.min_l in K, K' by lia.
  assert (Pf : forall i, i < n -> nth i (out_Dk o) [] = firstn k (nth i (out_Dk o') [])).
  { intros i Hi. apply (knn_list_unique (fun x y => nearer metric (eff metric D i x) (eff metric D i y)) n k _ _ (fun _ => true)).
    - now apply K.
    - apply (firstn_knn _ _ _ k'); [now apply K'|lia].
    - intros x y z _ _ _. apply nearer_trans.
    - intros x _. apply nearer_irrefl.
    - discriminate.
    - intros x y Hx Hy Hne _ _. rewrite !eff_rank by assumption. apply (rank_total f64_cmp metric D n); auto.
    - unfold count_if. assert (T : forall s : list nat, filter (fun _ => true) s = s) by (induction s; cbn; congruence). rewrite T, seq_length. lia. }
  split; [exact Pf|]. intros x Hx. rewrite Nk, Nk'.
  assert (Rg : forall p (kk : nat), length (out_Dk p) = n -> (forall i, i < n -> knn_list (fun x y => nearer metric (eff metric D i x) (eff metric D i y)) n kk (nth i (out_Dk p) [])) ->
     forall y, In y (concat (out_Dk p)) -> y < n).
  { intros p kk Lp Kp y Hy. apply in_concat in Hy as (l & Hl & Hy). apply (In_nth _ _ []) in Hl as (i & Hi & <-). apply (knn_range _ _ _ _ (Kp i ltac:(lia)) y Hy). }
  rewrite !bincount_nth by (assumption || (eapply Rg; eauto)).
  assert (G : forall A B : list (list nat), length A = length B -> (forall i, i < length A -> nth i A [] = firstn k (nth i B [])) ->
     count_occ Nat.eq_dec (concat A) x <= count_occ Nat.eq_dec (concat B) x).
  { induction A as [|a A IH]; intros [|b B] HL H; try discriminate; [apply le_n|]. cbn [concat]. rewrite !count_occ_app.
    pose proof (H 0 ltac:(cbn; lia)) as H0. cbn [nth] in H0. subst a.
    specialize (IH B ltac:(cbn in HL; lia) (fun i Hi => H (S i) ltac:(cbn [length]; lia))).
    assert (count_occ Nat.eq_dec (firstn k b) x <= count_occ Nat.eq_dec b x); [|lia]. rewrite <- (firstn_skipn k b) at 2. rewrite count_occ_app. lia. }
  apply G; [lia|]. intros i Hi. apply Pf. lia.
Qed.

(** ** Shared neighbours: who shares a neighbour among the k nearest also does among more *)
Lemma kset_mono b m k k' A B : (forall x y, x < m -> y < m -> x <> y -> b x y = true \/ b y x = true) ->
  kset b m k A -> kset b m k' B -> k <= k' -> forall x, In x A -> In x B.
Proof.
  intros T [a1 a2 a3 a4] [b1 b2 b3 b4] Hk x Hx. destruct (in_dec Nat.eq_dec x B) as [|Hn]; [assumption|exfalso].
  destruct (Forall_Exists_dec (fun y => In y A) (fun y => in_dec Nat.eq_dec y A) B) as [F|E].
  - rewrite Forall_forall in F. assert (length (x :: B) <= length A); [|cbn [length] in *; lia].
    apply NoDup_incl_length; [now constructor|]. intros y [<-|Hy]; auto.
  - apply Exists_exists in E as (y & Hy & Hny). assert (x <> y) by congruence.
    destruct (T x y) as [Q|Q]; auto.
    + rewrite (b4 x y) in Q; auto. discriminate.
    + rewrite (a4 y x) in Q; auto. discriminate.
Qed.
Lemma neq_not_lt (a b c : f64) : neq a c = true -> neq b c = true -> nlt a b = true -> False.
Proof.
  rewrite !(cl_eq _ _ _ f64_cmp), (cl_lt _ _ _ f64_cmp).
  destruct (f2x a) as [| |u|], (f2x b) as [| |v|], (f2x c) as [| |w|]; cbn; try discriminate.
  destruct (Req_EM_T u w), (Req_EM_T v w), (Rlt_dec u v); try discriminate. lra.
Qed.
Lemma none_shared sim k c : 0 < k -> c <= k -> (Z.of_nat k <= 2 ^ 50)%Z ->
  (neq (float_share sim k c) (if sim then n0 else n1) = true <-> c = 0).
Proof.
  intros Hk Hc Hb. destruct (share_zero k Hk ltac:(lia)) as (S1 & S0).
  assert (Z0 : neq (float_share sim k 0) (if sim then n0 else n1) = true) by (destruct sim; [exact S0|exact S1]).
  split; [|intros ->; exact Z0]. intros H. destruct c as [|c]; [reflexivity|exfalso]. destruct sim.
  - destruct (share_order true k 0 (S c) Hk ltac:(lia) Hc Hb) as (O & _). exact (neq_not_lt _ _ _ Z0 H (proj2 O ltac:(lia))).
  - destruct (share_order false k (S c) 0 Hk Hc ltac:(lia) Hb) as (O & _). exact (neq_not_lt _ _ _ H Z0 (proj2 O ltac:(lia))).
Qed.

Theorem C197_shared_neighbours :
  forall (argpart argpart' : list f64 -> list nat -> list nat), argpart_ok argpart -> argpart_ok argpart' ->
  forall (D : arr2 f64) k k' metric,
    valid_metric metric = true -> nrow D = ncol D -> all_finite D -> untied D -> 0 < k <= k' -> k' < nrow D -> (Z.of_nat k' <= 2 ^ 50)%Z ->
    exists M M', snn_serial argpart D (Z.of_nat k) metric = Ok M /\ snn_serial argpart' D (Z.of_nat k') metric = Ok M' /\
      let none := if is_sim metric then n0 else n1 in
      forall i j, i < nrow D -> j < nrow D -> i <> j -> neq (at2 M' i j) none = true -> neq (at2 M i j) none = true.
Proof.
  intros argpart argpart' AP AP' D k k' metric Hv Hsq Hf Hu Hk Hn Hb.
  destruct (C14_snn_formula argpart AP metric D k Hv Hsq ltac:(lia) ltac:(lia) ltac:(left; lia)) as (M & hood & HM & _ & _ & K & _ & A).
  destruct (C14_snn_formula argpart' AP' metric D k' Hv Hsq ltac:(lia) ltac:(lia) ltac:(left; lia)) as (M' & hood' & HM' & _ & _ & K' & _ & A').
  exists M, M'. split; [exact HM|]. split; [exact HM'|]. cbv zeta. intros i j Hi Hj Hij.
  assert (F : at2 M i j = float_share (is_sim metric) k (overlap (hood i) (hood j)) /\ at2 M' i j = float_share (is_sim metric) k' (overlap (hood' i) (hood' j))).
  { destruct (A i j Hi Hj Hij) as (Ad & As & _). destruct (A' i j Hi Hj Hij) as (Ad' & As' & _). unfold valid_metric in Hv. apply orb_true_iff in Hv.
    destruct (String.eqb_spec metric "distance") as [->|]; [rewrite Ad, Ad' by reflexivity; split; reflexivity|].
    destruct (String.eqb_spec metric "similarity") as [->|]; [rewrite As, As' by reflexivity; split; reflexivity|].
    exfalso. unfold is_dist, is_sim in Hv. rewrite !String.eqb_eq in Hv. tauto. }
  destruct F as (-> & ->).
  assert (Le : forall h kk a b, (forall i, i < nrow D -> kset (fun x y => nearer metric (rank_value metric D i x) (rank_value metric D i y)) (nrow D) kk (h i) /\
         ((forall x, x < nrow D -> x <> i -> nisfin (at2 D i x) = true) -> kk < nrow D -> ~ In i (h i))) -> a < nrow D -> overlap (h a) (h b) <= kk).
  { intros h kk a b Kh Ha. rewrite overlap_le. destruct (Kh a Ha) as ([k1 _ _ _] & _). lia. }
  rewrite !none_shared by (lia || (eapply Le; eassumption)).
  assert (Sub : forall a, a < nrow D -> forall x, In x (hood a) -> In x (hood' a)).
  { intros a Ha. apply (kset_mono _ _ _ _ _ _ (fun x y Hx Hy Hxy => rank_total f64_cmp metric D (nrow D) a x y (fun u v Hu1 Hv1 Hne => Hf u v Hu1 Hv1 (not_eq_sym Hne)) Hu Ha Hx Hy Hxy) (proj1 (K a Ha)) (proj1 (K' a Ha))). lia. }
  intros Z. destruct (Nat.eq_dec (overlap (hood i) (hood j)) 0) as [|Nz]; [assumption|exfalso].
  unfold overlap in Nz, Z. destruct (filter (fun x => existsb (Nat.eqb x) (hood j)) (hood i)) as [|x l] eqn:E; [now apply Nz|].
  assert (Hx : In x (x :: l)) by now left. rewrite <- E in Hx. apply filter_In in Hx as (Hx & Hx'). apply existsb_exists in Hx' as (y & Hy & Exy). apply Nat.eqb_eq in Exy. subst y.
  assert (In x (filter (fun x => existsb (Nat.eqb x) (hood' j)) (hood' i))).
  { apply filter_In. split; [now apply Sub|]. apply existsb_exists. exists x. split; [now apply Sub|apply Nat.eqb_refl]. }
  destruct (filter _ (hood' i)); [contradiction|discriminate].
Qed.

(** ** Local scaling: larger neighbourhoods make all distances smaller *)
Theorem C197_local_scaling :
  forall part part' (D : arr2 xr) (k k' : nat) cpu cpu' n_jobs n_jobs' res res',
    part_ok part -> part_ok part' -> nrow D = ncol D ->
    (forall a b, a < nrow D -> b < nrow D -> a <> b -> nisfin (at2 D a b) = true /\ nlt (XFin 0) (at2 D a b) = true) ->
    0 < k <= k' -> k' < nrow D -> (1 <= workers cpu n_jobs)%Z -> (1 <= workers cpu' n_jobs')%Z ->
    local_scaling xexp part D (Z.of_nat k) "distance" None cpu n_jobs res ->
    local_scaling xexp part' D (Z.of_nat k') "distance" None cpu' n_jobs' res' ->
    exists L L', res = Ok L /\ res' = Ok L' /\
    forall a b, a < nrow D -> b < nrow D -> nle (at2 L' a b) (at2 L a b) = true.
Proof.
  intros part part' D k k' cpu cpu' nj nj' res res' PO PO' Hsq Hf Hk Hkn Hw Hw' H H'. set (n := nrow D) in *.
  destruct (C27_ls_formula part D n k None cpu nj res PO eq_refl (eq_sym Hsq)) as (L & r & -> & _ & _ & K & Dg & SL & F & _); [intros; now apply Hf|cbn [training]; rewrite seq_length; lia|exact Hw|exact H|].
  destruct (C27_ls_formula part' D n k' None cpu' nj' res' PO' eq_refl (eq_sym Hsq)) as (L' & r' & -> & _ & _ & K' & Dg' & SL' & F' & _); [intros; now apply Hf|cbn [training]; rewrite seq_length; lia|exact Hw'|exact H'|].
  exists L, L'. split; [reflexivity|]. split; [reflexivity|]. cbn [training] in K, K'.
  assert (Pr : forall a, a < n -> (0 < r a)%R).
  { intros a Ha. destruct (K a Ha) as (Hin & _). unfold S_LS.others in Hin. apply in_map_iff in Hin as (j & Ej & Hj).
    apply filter_In in Hj as (Hj & Hne). apply in_seq in Hj. apply negb_true_iff, Nat.eqb_neq in Hne. destruct (Hf a j Ha ltac:(lia) ltac:(congruence)) as (_ & P).
    rewrite Ej in P. now apply xlt_R in P. }
  assert (Rle : forall a, a < n -> (r a <= r' a)%R).
  { intros a Ha. destruct (K a Ha) as (_ & K1 & _). destruct (K' a Ha) as (_ & _ & K2). destruct (Rle_dec (r a) (r' a)) as [|Hn]; [assumption|exfalso].
    assert (Sub : length (filter (fun x => nle x (XFin (r' a))) (S_LS.others D (seq 0 n) a)) <= length (filter (fun x => nlt x (XFin (r a))) (S_LS.others D (seq 0 n) a))); [|lia].
    apply filter_length_mono. intros v _ Q. apply (nle_nlt_trans xr_cmp _ (XFin (r' a))); [exact Q|]. apply xlt_R. lra. }
  assert (Mono : forall u s t : R, (0 <= u)%R -> (0 < s)%R -> (s <= t)%R -> (1 - exp (- u / t) <= 1 - exp (- u / s))%R).
  { intros u s t Hu Hs Ht. assert (Q1 : (- u / s <= - u / t)%R).
    { apply (Rmult_le_reg_r (s * t)); [nra|]. replace (- u / t * (s * t))%R with (- (u * s))%R by (field; lra). replace (- u / s * (s * t))%R with (- (u * t))%R by (field; lra). nra. }
    destruct Q1 as [Q1|Q1]; [apply exp_increasing in Q1; lra|rewrite Q1; lra]. }
  assert (G : forall a b, a < b -> b < n -> nle (at2 L' a b) (at2 L a b) = true).
  { intros a b Hab Hb. pose proof (Pr a ltac:(lia)) as P1. pose proof (Pr b Hb) as P2. pose proof (Rle a ltac:(lia)) as Q1. pose proof (Rle b Hb) as Q2.
    rewrite F, F' by (auto; nra). apply xle_R. apply Mono; nra. }
  intros a b Ha Hb. destruct (Nat.lt_trichotomy a b) as [C|[->|C]]; [now apply G| |rewrite (SL a b), (SL' a b) by assumption; now apply G].
  rewrite Dg, Dg' by assumption. apply xle_R. lra.
Qed.

(** ** The hypotheses can be met: objects at 0, 1, 3 and 7, neighbourhoods of 1 and 2 *)
Example C197_case : let D := line_at [0; 1; 3; 7]%Z in nrow D = ncol D /\ all_finite D /\ untied D /\ 0 < 1 <= 2 /\ 2 < nrow D.
Proof.
  cbv zeta. destruct C192_case as (_ & _ & _ & U & _). split; [reflexivity|]. split; [|split; [exact U|split; [lia|cbn; lia]]].
  intros i j Hi Hj Hne. cbn [line_at nrow length] in *. destruct i as [|[|[|[|i]]]], j as [|[|[|[|j]]]]; try lia; vm_compute; reflexivity.
Qed.
Example C197_case_exact : nrow exX4 = ncol exX4 /\
  (forall a b, a < nrow exX4 -> b < nrow exX4 -> a <> b -> nisfin (at2 exX4 a b) = true /\ nlt (XFin 0) (at2 exX4 a b) = true) /\
  0 < 1 <= 2 /\ 2 < nrow exX4 /\ (1 <= workers 4 2)%Z /\
  (exists res, local_scaling xexp ref_part exX4 1 "distance" None 4 2 res) /\ (exists res, local_scaling xexp ref_part exX4 2 "distance" None 4 2 res).
Proof.
  split; [reflexivity|]. split; [|split; [lia|split; [cbn; lia|split; [vm_compute; discriminate|split; apply C29_some_outcome]]]].
  intros a b Ha Hb Hne. cbn [exX4 at2]. rewrite (proj2 (Nat.eqb_neq a b) Hne). split; [reflexivity|]. apply xlt_R. apply (lt_INR 0). lia.
Qed.

Print Assumptions C197_hubness.
Print Assumptions C197_shared_neighbours.
Print Assumptions C197_local_scaling.
