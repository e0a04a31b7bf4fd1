(** Property C194: classes that are separated get perfect results. *)
From Coq Require Import String.
From Coq Require Import ZArith Reals Lra List Arith Lia Bool Permutation Sorting.
From Flocq Require Import Core BinarySingleNaN.
From Verif Require Import Py Num NumT Arr Sort S_Neighbors S_MP S_GK S_SNN S_KNN M_IO M_Hubness M_MPEmpiric M_GK M_SNN M_KNN.
From Verif Require Import P_Neighbors P_F64 P_Hubness P_MPEmpiric P_MPEmpiric2 P_GK P_GK2 P_SNN P_KNN P_KNN2 P_KNN3 P_KNN4.
From Verif Require Import Properties_Hubness Properties_MP Properties_GK Properties_SNN Properties_KNN Properties_KNNAcc Properties_CountAcc Properties_Remote Properties_Dup.
Import ListNotations.
Local Open Scope nat_scope.

(** ** Specification *)
Definition label (lab : list Z) (i : nat) : Z := nth i lab 0%Z.
(** everyone is closer to the members of the own class than to all others *)
Definition separated (metric : string) (D : arr2 f64) (lab : list Z) : Prop :=
  (forall i x, i < nrow D -> x < nrow D -> x <> i -> nisfin (at2 D i x) = true) /\
  (forall i x y, i < nrow D -> x < nrow D -> y < nrow D -> x <> i -> label lab x = label lab i -> label lab y <> label lab i ->
     nearer metric (at2 D i x) (at2 D i y) = true).
(** every class has more than [k] members *)
Definition mates (lab : list Z) (n i : nat) : list nat := filter (fun x => (label lab x =? label lab i)%Z && negb (x =? i)) (seq 0 n).
Definition classes_of_at_least (k : nat) (lab : list Z) (n : nat) : Prop := forall i, i < n -> k <= length (mates lab n i).

Lemma mates_in lab n i x : In x (mates lab n i) <-> x < n /\ label lab x = label lab i /\ x <> i.
Proof. unfold mates. rewrite filter_In, in_seq, andb_true_iff, Z.eqb_eq, negb_true_iff, Nat.eqb_neq. intuition lia. Qed.
Lemma mates_lt lab n i : i < n -> length (mates lab n i) < n.
Proof.
  intros Hi. assert (L : length (i :: mates lab n i) <= length (seq 0 n)); [|rewrite seq_length in L; exact L].
  apply NoDup_incl_length.
  - constructor; [rewrite mates_in; tauto|apply NoDup_filter, seq_NoDup].
  - intros x [<-|Hx]; [apply in_seq; lia|]. apply mates_in in Hx. apply in_seq. lia.
Qed.
(** a list that is too short, or contains a stranger, misses a class mate *)
Lemma mate_missing lab n i (l : list nat) : length l < length (mates lab n i) -> exists x, In x (mates lab n i) /\ ~ In x l.
Proof.
  intros H. destruct (Forall_Exists_dec (fun x => In x l) (fun x => in_dec Nat.eq_dec x l) (mates lab n i)) as [F|E].
  - exfalso. rewrite Forall_forall in F. assert (length (mates lab n i) <= length l); [|lia]. apply NoDup_incl_length; [apply NoDup_filter, seq_NoDup|exact F].
  - apply Exists_exists in E. exact E.
Qed.
Lemma mate_missing' lab n i (l : list nat) y : NoDup l -> In y l -> label lab y <> label lab i -> length l <= length (mates lab n i) -> exists x, In x (mates lab n i) /\ ~ In x l.
Proof.
  intros Nd Hy Hl Hle. apply in_split in Hy as (l1 & l2 & ->). destruct (mate_missing lab n i (l1 ++ l2)) as (x & Hx & Hn).
  - rewrite app_length in *. cbn [length] in Hle. lia.
  - exists x. split; [exact Hx|]. rewrite in_app_iff in *. intros [H|[H|H]]; [tauto| |tauto]. apply mates_in in Hx. subst. tauto.
Qed.

(** ** Hubness: all neighbours come from the own class *)
Theorem C194_hubness :
  forall (argpart : list f64 -> list nat -> list nat), argpart_ok argpart ->
  forall sparse (D : arr2 f64) lab (k : nat) metric se rps,
    valid_metric metric = true -> nrow D = ncol D -> 0 < nrow D -> separated metric D lab -> classes_of_at_least k lab (nrow D) ->
    (forall i, i < nrow D -> Permutation (rps i) (seq 0 (ncol D))) ->
    exists o, hubness_serial argpart sparse D (Z.of_nat k) metric se rps = Ok o /\
      forall i, i < nrow D -> length (nth i (out_Dk o) []) = k /\ forall y, In y (nth i (out_Dk o) []) -> label lab y = label lab i.
Proof.
  intros argpart AP sparse D lab k metric se rps Hv Hsq Hn (Hf & Hs) Hc Hrp.
  destruct (C02_serial_neighbours_are_nearest argpart AP sparse D k metric se rps Hv) as (o & Ho & L & _ & K); [lia|now left|assumption|].
  exists o. split; [exact Ho|]. intros i Hi. specialize (K i Hi). pose proof (mates_lt lab (nrow D) i Hi) as Hm. specialize (Hc i Hi).
  rewrite <- Hsq in K. rewrite Nat.min_l in K by lia. destruct K as [l1 l2 l3 l4 l5]. split; [exact l1|]. intros y Hy.
  destruct (Z.eq_dec (label lab y) (label lab i)) as [|Hne]; [assumption|]. exfalso.
  destruct (mate_missing' lab (nrow D) i _ y l2 Hy Hne ltac:(lia)) as (x & Hx & Hnx). apply mates_in in Hx as (Hx & Ex & Hxi).
  pose proof (l5 x y Hx Hnx Hy) as Q. pose proof (l3 y Hy) as Hyn. assert (Hyi : y <> i) by congruence.
  assert (U : forall z, z < nrow D -> z <> i -> eff metric D i z = at2 D i z).
  { intros z Hz Hzi. unfold eff, usable. rewrite Hsq, Nat.eqb_refl. rewrite Hf by auto. now rewrite (proj2 (Nat.eqb_neq z i)). }
  rewrite !U in Q by assumption. rewrite (Hs i x y) in Q by assumption. discriminate.
Qed.

(** ** Shared neighbours: objects of different classes share none *)
Lemma same_real (x y : f64) : is_finite x = true -> is_finite y = true -> B2R x = B2R y -> neq x y = true.
Proof. intros Fx Fy E. change (Beqb x y = true). rewrite Beqb_correct by assumption. now apply Req_bool_true. Qed.
Lemma share_zero k : 0 < k -> (Z.of_nat k <= 2 ^ 53)%Z -> neq (nsub n1 (ndiv (nofnat 0) (nofnat k)) : f64) n1 = true /\ neq (ndiv (nofnat 0) (nofnat k) : f64) n0 = true.
Proof.
  intros Hk Hb. destruct (frac_correct 0 k ltac:(lia) Hk Hb) as (U & E). cbn [INR] in E. unfold Rdiv in E. rewrite Rmult_0_l in E. unfold rnd in E. rewrite round_0 in E by (apply valid_rnd_round_mode).
  destruct (compl_correct _ U) as ((F & _) & E1). rewrite E, Rminus_0_r in E1.
  assert (R1 : rnd 1 = 1%R). { unfold rnd. apply round_generic; [apply valid_rnd_round_mode|]. change 1%R with (bpow radix2 0). apply generic_format_bpow. vm_compute. discriminate. }
  rewrite R1 in E1. destruct n1_f64 as (N1 & F1). destruct n0_f64 as (N0 & F0). destruct U as (FU & _).
  split.
  - apply same_real; [assumption|assumption|]. now rewrite E1, N1.
  - apply same_real; [assumption|assumption|]. now rewrite E, N0.
Qed.

Theorem C194_shared_neighbours :
  forall (argpart : list f64 -> list nat -> list nat), argpart_ok argpart ->
  forall (D : arr2 f64) lab k metric,
    valid_metric metric = true -> nrow D = ncol D -> 0 < nrow D -> separated metric D lab -> classes_of_at_least k lab (nrow D) ->
    0 < k -> (Z.of_nat k <= 2 ^ 53)%Z ->
    exists M, snn_serial argpart D (Z.of_nat k) metric = Ok M /\
      forall i j, i < nrow D -> j < nrow D -> label lab i <> label lab j -> neq (at2 M i j) (if is_sim metric then n0 else n1) = true.
Proof.
  intros argpart AP D lab k metric Hv Hsq Hn (Hf & Hs) Hc Hk Hb.
  assert (Hkn : k < nrow D) by (pose proof (mates_lt lab (nrow D) 0 Hn); specialize (Hc 0 Hn); lia).
  destruct (C14_snn_formula argpart AP metric D k Hv Hsq Hk Hb (or_introl Hkn)) as (M & hood & HM & _ & _ & K & _ & A).
  exists M. split; [exact HM|].
  assert (Own : forall i y, i < nrow D -> In y (hood i) -> label lab y = label lab i).
  { intros i y Hi Hy. destruct (K i Hi) as ([k1 k2 k3 k4] & Self). assert (Sf : ~ In i (hood i)) by (apply Self; [intros; now apply Hf|exact Hkn]).
    destruct (Z.eq_dec (label lab y) (label lab i)) as [|Hne]; [assumption|]. exfalso.
    destruct (mate_missing' lab (nrow D) i _ y k2 Hy Hne) as (x & Hx & Hnx); [specialize (Hc i Hi); lia|]. apply mates_in in Hx as (Hx & Ex & Hxi).
    pose proof (k4 x y Hx Hnx Hy) as Q. assert (Hyi : y <> i) by congruence. unfold rank_value in Q.
    rewrite (proj2 (Nat.eqb_neq x i)), (proj2 (Nat.eqb_neq y i)) in Q by assumption. rewrite (Hs i x y) in Q by auto. discriminate. }
  intros i j Hi Hj Hne. destruct (A i j Hi Hj ltac:(congruence)) as (Ad & As & _).
  assert (O : overlap (hood i) (hood j) = 0).
  { unfold overlap. destruct (filter _ (hood i)) as [|x l] eqn:E; [reflexivity|]. exfalso. assert (Hx : In x (x :: l)) by now left. rewrite <- E in Hx. apply filter_In in Hx as (Hx & Hx').
    apply existsb_exists in Hx' as (y & Hy & Exy). apply Nat.eqb_eq in Exy. subst y. apply Hne. rewrite <- (Own i x), <- (Own j x); auto. }
  destruct (share_zero k Hk Hb) as (S1 & S0). unfold valid_metric in Hv. apply orb_true_iff in Hv. rewrite O in Ad, As.
  destruct (String.eqb_spec metric "distance") as [->|]; [rewrite Ad by reflexivity; exact S1|].
  destruct (String.eqb_spec metric "similarity") as [->|]; [rewrite As by reflexivity; exact S0|]. exfalso. unfold is_dist, is_sim in Hv. rewrite !String.eqb_eq in Hv. tauto.
Qed.

(** ** k-nearest-neighbour classification makes no mistake *)
Lemma elected_same (l : list Z) c p : l <> [] -> (forall x, In x l -> x = c) -> elected l p -> p = c.
Proof.
  intros Hn Hl [P|(_ & E)].
  - destruct (Z.eq_dec p c) as [|Hne]; [assumption|]. exfalso. specialize (P c ltac:(congruence)). unfold zvotes in P.
    assert (Z0 : count_occ Z.eq_dec l p = 0) by (apply count_occ_not_In; intros H; apply Hl in H; contradiction). lia.
  - apply nth_error_In in E. auto.
Qed.
Lemma ranked_mates better lab n i (cand : nat -> Prop) l k :
  ranking better cand l -> (forall x, In x (mates lab n i) -> cand x) -> k <= length (mates lab n i) ->
  (forall x y, In x (mates lab n i) -> In y l -> y <> i -> label lab y <> label lab i -> better x y = true) ->
  forall y, In y (firstn k l) -> y <> i -> label lab y = label lab i.
Proof.
  intros [R1 R2 R3] Hc Hk Hb y Hy Hyi. destruct (Z.eq_dec (label lab y) (label lab i)) as [|Hne]; [assumption|]. exfalso.
  apply (In_nth _ _ 0) in Hy as (p & Hp & Ep). rewrite firstn_length in Hp. assert (Hpl : p < length l) by lia.
  assert (Ep' : nth p l 0 = y). { rewrite <- Ep. rewrite <- (firstn_skipn k l) at 1. apply app_nth1. rewrite firstn_length. lia. }
  destruct (mate_missing lab n i (firstn p l)) as (x & Hx & Hnx); [rewrite firstn_length; lia|].
  assert (Hxl : In x l) by (apply R2, Hc, Hx). apply (In_nth _ _ 0) in Hxl as (q & Hq & Eq).
  assert (Hyl : In y l) by (rewrite <- Ep'; now apply nth_In).
  pose proof (Hb x y Hx Hyl Hyi Hne) as B. destruct (Nat.lt_trichotomy q p) as [C|[->|C]].
  - apply Hnx. rewrite <- Eq. rewrite <- (firstn_skipn p l) at 1. rewrite app_nth1 by (rewrite firstn_length; lia). apply nth_In. rewrite firstn_length. lia.
  - apply mates_in in Hx as (_ & Hx & _). apply Hne. rewrite <- Hx. f_equal. congruence.
  - pose proof (R3 p q C Hq) as Q. rewrite Eq, Ep' in Q. congruence.
Qed.

Theorem C194_classification :
  forall argsort, argsort_ok argsort ->
  forall rp, (forall i l, Permutation (rp i l) l) ->
  forall sh, (forall (i j : nat) l, Permutation (sh i j l) l) ->
  forall (D : arr2 f64) lab ks metric,
    nrow D = ncol D -> 0 < nrow D -> length lab = nrow D -> valid_metric metric = true -> separated metric D lab ->
    (forall k, In k ks -> 0 < k /\ classes_of_at_least k lab (nrow D)) ->
    exists out, score argsort rp sh D lab (map Z.of_nat ks) metric None None = Ok out /\ length out = length ks /\
      forall s, In s out -> (forall i, i < nrow D -> k_corr s i = true) /\
        ((Z.of_nat (nrow D) <= 2 ^ 50)%Z -> nisfin (k_acc s) = true /\ (Rabs (B2R (k_acc s) - 1) <= INR (nrow D) * bpow radix2 (-52))%R).
Proof.
  intros argsort AS rp RP sh SH D lab ks metric Hsq Hn HL Hv (Hf & Hs) Hks.
  destruct (C23_majority argsort AS rp RP sh SH D lab ks metric (unique_labels lab) Hsq HL Hv) as (out & pred & idx & E & L & Hd & Hp).
  { split; [apply unique_sorted|intros c; now rewrite unique_In]. }
  exists out. split; [exact E|]. split; [exact L|]. intros s Hin.
  assert (All : forall i, i < nrow D -> k_corr s i = true).
  2:{ split; [exact All|]. intros Hb. destruct (C177_leave_one_out argsort AS rp RP sh SH D lab (map Z.of_nat ks) metric Hsq Hn Hb HL Hv) as (out' & E' & _ & Cl).
      rewrite E in E'. injection E' as <-. specialize (Cl s Hin). unfold close_to_share in Cl. cbv zeta in Cl. rewrite seq_length in Cl.
      rewrite (filter_all (k_corr s) (seq 0 (nrow D))) in Cl by (intros i Hi; apply All; apply in_seq in Hi; lia). rewrite seq_length in Cl.
      unfold Rdiv in Cl. rewrite Rinv_r in Cl by (apply not_0_INR; lia). exact Cl. }
  intros i Hi. destruct (In_nth_error _ _ Hin) as (j & Hj).
  assert (Hjl : j < length ks) by (rewrite <- L; apply nth_error_Some; congruence).
  rewrite (de_corr _ _ _ _ _ _ (Hd j s Hj) i) by (apply in_seq; lia). apply Z.eqb_eq. symmetry.
  destruct (Hp i Hi) as (Rk & El & Ne). destruct (Hks (nth j ks 0) (nth_In _ _ Hjl)) as (Hk0 & Hkc). specialize (Hkc i Hi).
  assert (HF : has_finite_neighbor metric D i).
  { split.
    - destruct (mates lab (nrow D) i) as [|x l] eqn:Em; [cbn in Hkc; lia|]. exists x. assert (Hx : In x (mates lab (nrow D) i)) by (rewrite Em; now left).
      apply mates_in in Hx as (Hx & _ & Hxi). rewrite <- Hsq. auto.
    - intros x Hx Hxi. left. apply Hf; lia. }
  specialize (Ne HF (fun k Hk => proj1 (Hks k Hk))).
  apply (elected_same (map (fun x => nth x lab 0%Z) (filter (fun x => nisfin (rank_value metric D i x)) (firstn (nth j ks 0) (idx i))))).
  - intros H. apply map_eq_nil in H. now apply (Ne j Hjl).
  - intros c Hc. apply in_map_iff in Hc as (x & <- & Hx). apply filter_In in Hx as (Hx & Hfx).
    assert (Hxi : x <> i). { intros ->. unfold rank_value in Hfx. rewrite Nat.eqb_refl in Hfx. unfold worst in Hfx. destruct (is_sim metric); discriminate. }
    apply (ranked_mates _ lab (nrow D) i _ _ (nth j ks 0) Rk); auto.
    + intros y Hy. apply mates_in in Hy as (Hy & _ & Hyi). split; [exact Hy|]. unfold rank_value. rewrite (proj2 (Nat.eqb_neq y i)) by assumption.
      specialize (Hf i y Hi Hy Hyi). destruct (at2 D i y); try discriminate; reflexivity.
    + intros a b Ha Hb Hbi Hbl. apply mates_in in Ha as (Ha & Ea & Hai). apply (rk_in _ _ _ Rk) in Hb as (Hb & _).
      unfold rank_value. rewrite (proj2 (Nat.eqb_neq a i)), (proj2 (Nat.eqb_neq b i)) by assumption. now apply Hs.
  - apply El; [exact Hjl|]. intros j' Hj'. apply (Ne j'). lia.
Qed.

(** ** The Goodman-Kruskal index is one *)
Theorem C194_goodman_kruskal :
  forall argsort sort, stable_ok argsort -> sort_ok sort ->
  forall (D : arr2 f64) (lab : list Z) metric,
    nrow D = ncol D -> length lab = nrow D -> valid_metric metric = true ->
    (forall i j, i < nrow D -> j < nrow D -> i <> j -> neq (at2 D i j) (at2 D j i) = true) ->
    (Z.of_nat (n_smaller D lab + n_larger D lab) <= 2 ^ 53)%Z ->
    (forall a b c d, a < b < nrow D -> c < d < nrow D -> label lab a = label lab b -> label lab c <> label lab d ->
       nearer metric (at2 D a b) (at2 D c d) = true) ->
    (exists a b, a < b < nrow D /\ label lab a = label lab b) -> (exists c d, c < d < nrow D /\ label lab c <> label lab d) ->
    exists g, goodman_kruskal_index argsort sort D lab metric = Ok g /\ neq g n1 = true.
Proof.
  intros argsort sort HA HS D lab metric Hsq HL Hv Hsym Hb Hsep (a & b & Hab & Eab) (c & d & Hcd & Ecd).
  rewrite C17_index_is_gamma by assumption. eexists. split; [reflexivity|].
  assert (Zr : forall P, (forall e o, nearer metric (edge_val D e) (edge_val D o) = true -> P e o = false) -> quadruples (nrow D) lab P = 0).
  { intros P HP. unfold quadruples. apply (cnt_zero). intros ((p, q), (r, t)) H. apply in_prod_iff in H as (H1 & H2). apply edges_spec in H1. apply edges_spec in H2. cbn [fst snd].
    destruct (within lab (p, q)) eqn:W1; [|reflexivity]. destruct (within lab (r, t)) eqn:W2; [reflexivity|]. cbn [negb andb]. apply HP. unfold within in W1, W2. cbn [fst snd] in W1, W2.
    apply Z.eqb_eq in W1. apply Z.eqb_neq in W2. now apply Hsep. }
  assert (Ps : forall P, (forall e o, nearer metric (edge_val D e) (edge_val D o) = true -> P e o = true) -> 0 < quadruples (nrow D) lab P).
  { intros P HP. unfold quadruples. assert (I : In ((a, b), (c, d)) (filter (fun q => within lab (fst q) && negb (within lab (snd q)) && P (fst q) (snd q)) (list_prod (edges (nrow D)) (edges (nrow D))))).
    { apply filter_In. split; [apply in_prod_iff; split; apply edges_spec; assumption|]. cbn [fst snd].
      assert (W1 : within lab (a, b) = true) by (now apply Z.eqb_eq). assert (W2 : within lab (c, d) = false) by (now apply Z.eqb_neq). rewrite W1, W2. cbn [negb andb]. apply HP, Hsep; assumption. }
    destruct (filter _ _); [contradiction|cbn; lia]. }
  assert (G : forall q, 0 < q -> (Z.of_nat q <= 2 ^ 53)%Z -> neq (gamma (V:=f64) q 0) n1 = true).
  { intros q Hq Hq'. unfold gamma. rewrite Nat.add_0_r. rewrite (proj2 (Nat.eqb_neq q 0)) by lia. rewrite Z.sub_0_r.
    destruct (frac_correct q q ltac:(lia) Hq Hq') as ((F & _) & E). unfold Rdiv in E. rewrite Rinv_r in E by (apply not_0_INR; lia).
    assert (R1 : rnd 1 = 1%R). { unfold rnd. apply round_generic; [apply valid_rnd_round_mode|]. change 1%R with (bpow radix2 0). apply generic_format_bpow. vm_compute. discriminate. }
    rewrite R1 in E. destruct n1_f64 as (N1 & F1). apply same_real; [exact F|exact F1|]. now rewrite N1. }
  unfold n_smaller, n_larger in *. unfold nearer in Zr, Ps. destruct (is_sim metric).
  - rewrite (Zr (fun e o => nlt (edge_val D e) (edge_val D o))) in * by (intros e o; apply (nlt_asym f64_cmp)). apply G; [apply Ps; auto|lia].
  - rewrite (Zr (fun e o => nlt (edge_val D o) (edge_val D e))) in * by (intros e o; apply (nlt_asym f64_cmp)). apply G; [apply Ps; auto|lia].
Qed.

(** ** Empiric Mutual Proximity keeps separated classes separated, so all of the above holds for
    secondary distances as well *)
Theorem C194_mutual_proximity :
  forall (D : arr2 f64) lab, symmetric D -> (Z.of_nat (nrow D) <= 2 ^ 50)%Z -> separated "distance" D lab ->
  exists M, mp_empiric_full D "distance" TNone = Ok M /\ nrow M = nrow D /\ ncol M = nrow D /\ separated "distance" M lab.
Proof.
  intros D lab (Hsq & Sy) Hn (Hf & Hs). destruct (C07_mp_distance_formula D ltac:(lia) Hsq) as (M & HM & RM & CM & _ & A).
  exists M. split; [exact HM|]. split; [exact RM|]. split; [exact CM|]. set (n := nrow D) in *. unfold separated. rewrite RM.
  assert (F : forall i j, i < n -> j < n -> i <> j -> at2 M i j = float_share false n (farther_from_both D n i j (at2 D i j))).
  { intros i j Hi Hj Hij. destruct (Nat.lt_ge_cases i j) as [C|C].
    - rewrite (proj1 (A i j C Hj)). rewrite (Sy j i) by assumption. reflexivity.
    - destruct (A j i ltac:(lia) Hi) as (A1 & A2). rewrite A2, A1. rewrite farther_sym. reflexivity. }
  split.
  - intros i x Hi Hx Hne. rewrite F by auto. apply (share_close false n); [lia|apply count_if_le|exact Hn].
  - intros i x y Hi Hx Hy Hxi El Nl. assert (Hyi : y <> i) by congruence. rewrite !F by auto.
    set (own := fun z => (label lab z =? label lab i)%Z).
    assert (C1 : n <= farther_from_both D n i x (at2 D i x) + count_if own n).
    { unfold farther_from_both. set (p := fun z => _). pose proof (count_if_neg p n) as Q.
      assert (H : count_if (fun z => negb (p z)) n <= count_if own n); [|lia]. apply count_if_mono. intros z Hz Hp. unfold own. destruct (Z.eqb_spec (label lab z) (label lab i)) as [|Nz]; [reflexivity|].
      exfalso. unfold p in Hp. rewrite (proj2 (Nat.eqb_neq z i)), (proj2 (Nat.eqb_neq z x)) in Hp by congruence.
      pose proof (Hs i x z Hi Hx Hz Hxi El Nz) as Q1. pose proof (Hs x i z Hx Hi Hz ltac:(auto) ltac:(auto) ltac:(congruence)) as Q2. rewrite <- (Sy i x) in Q2 by assumption.
      unfold nearer in Q1, Q2. change (is_sim "distance") with false in Q1, Q2. cbv iota in Q1, Q2. rewrite Q1, Q2 in Hp. discriminate. }
    assert (C2 : S (farther_from_both D n i y (at2 D i y)) + count_if own n <= n).
    { unfold farther_from_both. set (p := fun z => _). pose proof (count_if_neg own n) as Q.
      assert (H : S (count_if p n) <= count_if (fun z => negb (own z)) n); [|lia].
      pose proof (count_if_or_and p (fun z => z =? y) n) as O. rewrite (count_if_eq1 n y Hy) in O.
      rewrite (count_if_ext (fun z => p z && (z =? y)) (fun _ => false)), count_if_false in O.
      2:{ intros z Hz. destruct (Nat.eqb_spec z y) as [->|]; [|apply andb_false_r]. unfold p. now rewrite Nat.eqb_refl, andb_false_r. }
      assert (G : count_if (fun z => p z || (z =? y)) n <= count_if (fun z => negb (own z)) n); [|lia].
      apply count_if_mono. intros z Hz Hp. unfold own. destruct (Z.eqb_spec (label lab z) (label lab i)) as [Ez|]; [|reflexivity]. exfalso.
      rewrite (proj2 (Nat.eqb_neq z y)), orb_false_r in Hp by congruence. unfold p in Hp. apply andb_prop in Hp as (Hp1 & Hp2). apply andb_prop in Hp1 as (Hp1 & _). apply andb_prop in Hp2 as (Hp2 & _).
      apply negb_true_iff, Nat.eqb_neq in Hp1. pose proof (Hs i z y Hi Hz Hy Hp1 Ez Nl) as Q1. unfold nearer in Q1. change (is_sim "distance") with false in Q1. cbv iota in Q1.
      apply (nlt_asym f64_cmp) in Q1. congruence. }
    change (nlt (float_share false n (farther_from_both D n i x (at2 D i x))) (float_share false n (farther_from_both D n i y (at2 D i y))) = true).
    apply (share_order false n); [lia|apply count_if_le|apply count_if_le|exact Hn|lia].
Qed.

(** ** The hypotheses can be met *)
Definition sep_line : arr2 f64 := line_at [0; 1; 3; 100; 101; 103]%Z.
Definition sep_lab : list Z := [5; 5; 5; 2; 2; 2]%Z.
Example C194_case : separated "distance" sep_line sep_lab /\ classes_of_at_least 2 sep_lab (nrow sep_line) /\ symmetric sep_line /\
  (forall i j, i < 6 -> j < 6 -> i <> j -> neq (at2 sep_line i j) (at2 sep_line j i) = true) /\
  (forall a b c d, a < b < 6 -> c < d < 6 -> label sep_lab a = label sep_lab b -> label sep_lab c <> label sep_lab d ->
     nearer "distance" (at2 sep_line a b) (at2 sep_line c d) = true).
Proof.
  assert (B1 : forallb (fun i => forallb (fun x => (x =? i) || nisfin (at2 sep_line i x)) (seq 0 6)) (seq 0 6) = true) by (vm_compute; reflexivity).
  assert (B2 : forallb (fun i => forallb (fun x => forallb (fun y => (x =? i) || negb (label sep_lab x =? label sep_lab i)%Z || (label sep_lab y =? label sep_lab i)%Z ||
      nearer "distance" (at2 sep_line i x) (at2 sep_line i y)) (seq 0 6)) (seq 0 6)) (seq 0 6) = true) by (vm_compute; reflexivity).
  assert (B3 : forallb (fun i => forallb (fun j => neq (at2 sep_line i j) (at2 sep_line j i)) (seq 0 6)) (seq 0 6) = true) by (vm_compute; reflexivity).
  assert (B4 : forallb (fun a => forallb (fun b => forallb (fun c => forallb (fun d => (b <=? a) || negb (label sep_lab a =? label sep_lab b)%Z || (label sep_lab c =? label sep_lab d)%Z ||
      nearer "distance" (at2 sep_line a b) (at2 sep_line c d)) (seq 0 6)) (seq 0 6)) (seq 0 6)) (seq 0 6) = true) by (vm_compute; reflexivity).
  assert (Q : forall (P : nat -> bool) i, forallb P (seq 0 6) = true -> i < 6 -> P i = true) by (intros P i H Hi; rewrite forallb_forall in H; apply H, in_seq; lia).
  split; [split|split; [|split; [|split]]].
  - change (nrow sep_line) with 6. intros i x Hi Hx Hne. pose proof (Q _ x (Q _ i B1 Hi) Hx) as H. cbv beta in H. now rewrite (proj2 (Nat.eqb_neq x i)) in H.
  - change (nrow sep_line) with 6. intros i x y Hi Hx Hy Hne El Nl. pose proof (Q _ y (Q _ x (Q _ i B2 Hi) Hx) Hy) as H. cbv beta in H.
    rewrite (proj2 (Nat.eqb_neq x i)), (proj2 (Z.eqb_eq _ _) El), (proj2 (Z.eqb_neq _ _) Nl) in H by assumption. exact H.
  - intros i Hi. change (nrow sep_line) with 6 in *. destruct i as [|[|[|[|[|[|i]]]]]]; try lia; vm_compute; lia.
  - split; [reflexivity|]. change (nrow sep_line) with 6. intros i j Hi Hj. cbn [sep_line line_at at2]. f_equal. lia.
  - intros i j Hi Hj _. exact (Q _ j (Q _ i B3 Hi) Hj).
  - intros a b c d Hab Hcd El Nl. pose proof (Q _ d (Q _ c (Q _ b (Q _ a B4 ltac:(lia)) ltac:(lia)) ltac:(lia)) ltac:(lia)) as H. cbv beta in H.
    rewrite (proj2 (Nat.leb_gt b a)), (proj2 (Z.eqb_eq _ _) El), (proj2 (Z.eqb_neq _ _) Nl) in H by lia. exact H.
Qed.

Print Assumptions C194_hubness.
Print Assumptions C194_mutual_proximity.
Print Assumptions C194_shared_neighbours.
Print Assumptions C194_classification.
Print Assumptions C194_goodman_kruskal.
