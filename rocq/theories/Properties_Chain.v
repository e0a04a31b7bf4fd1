(** Property C163: secondary distances of secondary distances, in float64. *)
From Coq Require Import String.
From Coq Require Import ZArith Reals Lra List Arith Lia Bool Permutation.
From Flocq Require Import Core BinarySingleNaN.
From Verif Require Import Py Num NumT Arr Sort Conc S_Neighbors S_LS S_MP S_SNN M_IO M_Hubness M_SNN M_LS M_MPEmpiric M_Chain.
From Verif Require Import P_F64 P_MPEmpiric P_LS P_LS2 P_LS3 P_MPEmpiric2 P_SNN S_LSFloat P_LSFloat S_NicdmAcc P_NicdmAcc S_Chain P_Chain.
From Verif Require Import Properties_MP Properties_SNN Properties_LS Properties_NICDM Properties_LSFloat Properties_NicdmAcc.
Import ListNotations.
Local Open Scope nat_scope.

(** ** Safe chains give proper distances, whatever they start from *)
Theorem C163_chain :
  forall vexp vln vsum eps part argpart n (D : arr2 f64) calls,
    (bpow radix2 (-53) <= eps <= bpow radix2 (-20))%R ->
    sum_close eps n vsum -> ln_close eps vln -> exp_accurate eps vexp -> exp_ok vexp ->
    part_ok part -> argpart_ok argpart -> (Z.of_nat n <= 2 ^ 53)%Z ->
    nrow D = n -> ncol D = n ->
    calls <> [] -> safe None calls -> sizes_fit n calls ->
    (exists r, chain vexp vln vsum part argpart D calls r) /\
    (forall r, chain vexp vln vsum part argpart D calls r -> exists M, r = Ok M /\ proper n M).
Proof.
  intros vexp vln vsum eps part argpart n D calls He Hs Hl Hx EO PO AP Hb Hr Hc Hne Sf Sz.
  apply (chain_proper vexp vln vsum eps part argpart n He Hs Hl Hx EO PO AP Hb calls None D Hne Sf Sz).
  repeat split; assumption.
Qed.

(** the same from distances between 2^-53 and 1, which need no Mutual Proximity first *)
Theorem C163_chain_of_distances :
  forall vexp vln vsum eps part argpart n (D : arr2 f64) calls,
    (bpow radix2 (-53) <= eps <= bpow radix2 (-20))%R ->
    sum_close eps n vsum -> ln_close eps vln -> exp_accurate eps vexp -> exp_ok vexp ->
    part_ok part -> argpart_ok argpart -> (Z.of_nat n <= 2 ^ 53)%Z ->
    nrow D = n -> ncol D = n ->
    (forall i j, i < n -> j < n -> i <> j -> nisfin (at2 D i j) = true /\ within (-53) 0 (at2 D i j)) ->
    calls <> [] -> safe (Some 0) calls -> sizes_fit n calls ->
    (exists r, chain vexp vln vsum part argpart D calls r) /\
    (forall r, chain vexp vln vsum part argpart D calls r -> exists M, r = Ok M /\ proper n M).
Proof.
  intros vexp vln vsum eps part argpart n D calls He Hs Hl Hx EO PO AP Hb Hr Hc HD Hne Sf Sz.
  apply (chain_proper vexp vln vsum eps part argpart n He Hs Hl Hx EO PO AP Hb calls (Some 0) D Hne Sf Sz).
  repeat split; try assumption; now apply HD.
Qed.

(** ** DEFECT: local scaling of shared-neighbour distances is NaN between
    objects that have the same neighbours *)
Lemma map_filter_len {A B} (f : A -> B) (p : B -> bool) l : length (filter p (map f l)) = length (filter (fun a => p (f a)) l).
Proof. induction l as [|a l IH]; [reflexivity|]. cbn. destruct (p (f a)); cbn; now rewrite IH. Qed.

Lemma kth_zero (M : arr2 f64) n G k i v : NoDup G -> k < length G -> In i G -> (forall a, In a G -> a < n) ->
  (forall a, In a G -> a <> i -> neq (at2 M i a) n0 = true) ->
  kth_smallest (others M (training n None) i) k v -> nlt n0 v = false.
Proof.
  intros ND Hk Hi Hn Hz (_ & Lt & _). destruct (nlt n0 v) eqn:E; [|reflexivity]. exfalso.
  unfold others in Lt. rewrite map_filter_len in Lt.
  apply in_split in Hi as (l1 & l2 & ->). rewrite app_length in Hk. cbn [length] in Hk.
  assert (ND' := NoDup_remove_1 _ _ _ ND). assert (Ni := NoDup_remove_2 _ _ _ ND).
  assert (L : length (l1 ++ l2) <= length (filter (fun a => nlt (at2 M i a) v) (filter (fun x => negb (x =? i)) (training n None)))).
  { apply NoDup_incl_length; [exact ND'|]. intros a Ha.
    assert (Ha' : In a (l1 ++ i :: l2)) by (apply in_app_iff in Ha; apply in_or_app; destruct Ha; [now left|right; now right]).
    assert (Hai : a <> i) by (intros ->; contradiction).
    apply filter_In. split; [apply filter_In; split|].
    - apply in_seq. specialize (Hn a Ha'). lia.
    - apply Nat.eqb_neq in Hai. now rewrite Hai.
    - specialize (Hz a Ha' Hai). rewrite (cl_eq _ _ _ f64_cmp), (cl_0 _ _ _ f64_cmp) in Hz. rewrite (cl_lt _ _ _ f64_cmp), (cl_0 _ _ _ f64_cmp) in E.
      rewrite (cl_lt _ _ _ f64_cmp). destruct (f2x (at2 M i a)); try discriminate. cbn in Hz. destruct (Req_EM_T r 0) as [->|]; [exact E|discriminate]. }
  rewrite app_length in L. lia.
Qed.

Lemma zero_small (v : f64) : dist64 v -> nlt n0 v = false -> (B2R v < bpow radix2 (-538))%R.
Proof.
  intros (F & S) H. destruct n0_f64 as (E0 & F0). pose proof (bpow_gt_0 radix2 (-538)).
  destruct (Rle_or_lt (B2R v) 0) as [L|L]; [lra|]. exfalso.
  assert (T : nlt n0 v = true) by (apply nlt_B2R; [exact F0|exact F|rewrite E0; exact L]). congruence.
Qed.

Theorem C163_zero_radii :
  forall vexp part (M : arr2 f64) n k G cpu n_jobs res,
    exp_ok vexp -> part_ok part -> nrow M = n -> ncol M = n ->
    (forall i j, i < n -> j < n -> i <> j -> dist64 (at2 M i j)) -> 0 < k < n ->
    NoDup G -> k < length G -> (forall a, In a G -> a < n) ->
    (forall a b, In a G -> In b G -> a <> b -> neq (at2 M a b) n0 = true) ->
    (1 <= workers cpu n_jobs)%Z ->
    local_scaling vexp part M (Z.of_nat k) "distance" None cpu n_jobs res ->
    exists L, res = Ok L /\ forall a b, In a G -> In b G -> a <> b -> nisnan (at2 L a b) = true.
Proof.
  intros vexp part M n k G cpu nj res EO PO Hr Hc HM Hk ND HG Hn HZ Hw H.
  destruct (ls64_outcome vexp part M n k None cpu nj res PO Hr Hc HM) as (L & rs & -> & _ & _ & K & Rd & _ & Off);
    [rewrite train_all; exact Hk|exact Hw|exact H|].
  exists L. split; [reflexivity|]. intros a b Ha Hb Hne. pose proof (Hn a Ha) as La. pose proof (Hn b Hb) as Lb.
  apply (proj1 (same_range _ _ (Off a b La Lb Hne))).
  assert (Z : forall x, In x G -> dist64 (nth x rs nnan) /\ (B2R (nth x rs nnan) < bpow radix2 (-538))%R).
  { intros x Hx. assert (T : dist64 (nth x rs nnan)).
    { destruct (Rd x (Hn x Hx)) as (y & Hy & Hyx & ->). apply HM; auto. }
    split; [exact T|]. apply zero_small; [exact T|].
    apply (kth_zero M n G k x _ ND HG Hx Hn); [intros y Hy Hyx; apply HZ; auto|apply K; auto]. }
  assert (Hmin : In (Nat.min a b) G) by (destruct (Nat.min_dec a b) as [-> | ->]; assumption).
  assert (Hmax : In (Nat.max a b) G) by (destruct (Nat.max_dec a b) as [-> | ->]; assumption).
  assert (Hd : Nat.min a b <> Nat.max a b) by lia.
  assert (T : dist64 (at2 M (Nat.min a b) (Nat.max a b))) by (apply HM; auto).
  assert (S : (B2R (at2 M (Nat.min a b) (Nat.max a b)) < bpow radix2 (-538))%R).
  { apply zero_small; [exact T|]. specialize (HZ _ _ Hmin Hmax Hd). rewrite (cl_eq _ _ _ f64_cmp), (cl_0 _ _ _ f64_cmp) in HZ.
    rewrite (cl_lt _ _ _ f64_cmp), (cl_0 _ _ _ f64_cmp). destruct (f2x (at2 M (Nat.min a b) (Nat.max a b))); try discriminate. cbn in HZ |- *.
    destruct (Req_EM_T r 0) as [->|]; [|discriminate]. destruct (Rlt_dec 0 0); [lra|reflexivity]. }
  assert (NN : forall x : f64, nisnan x = true -> nisnan (nsub n1 x) = true) by (intros []; try discriminate; reflexivity).
  unfold ls_val. change (is_sim "distance") with false. cbv iota. apply NN, (exp_nan _ EO).
  destruct (Z _ Hmin) as (Z1 & Z2), (Z _ Hmax) as (Z3 & Z4).
  rewrite (mul_tiny (at2 M (Nat.min a b) (Nat.max a b)) (at2 M (Nat.min a b) (Nat.max a b))) by auto.
  rewrite (mul_tiny (nth (Nat.min a b) rs nnan) (nth (Nat.max a b) rs nnan)) by auto. reflexivity.
Qed.

Lemma call_ls vexp vln vsum part argpart k M res : chain vexp vln vsum part argpart M [SLs k] res ->
  exists cpu nj, (1 <= workers cpu nj)%Z /\ local_scaling vexp part M (Z.of_nat k) "distance" None cpu nj res.
Proof.
  intros H. inversion H as [|c1 l1 M' r1 H1 H2|c1 l1 e H1]; subst c1 l1; [|exact H1]. inversion H2. subst. exact H1.
Qed.

(** shared-neighbour distances then local scaling, in terms of the neighbourhoods:
    k + 1 objects with the same k_snn nearest neighbours have NaN between them *)
Theorem C163_snn_then_local_scaling :
  forall vexp vln vsum part argpart (D : arr2 f64) n ks k res,
    exp_ok vexp -> part_ok part -> argpart_ok argpart ->
    nrow D = n -> ncol D = n -> (Z.of_nat n <= 2 ^ 53)%Z -> 0 < ks < n -> 0 < k < n ->
    chain vexp vln vsum part argpart D [SSnn ks; SLs k] res ->
    exists L (hood : nat -> list nat), res = Ok L /\
      (forall i, i < n -> kset (fun x y => nearer "distance" (rank_value "distance" D i x) (rank_value "distance" D i y)) n ks (hood i)) /\
      forall G, NoDup G -> k < length G -> (forall a, In a G -> a < n) ->
        (forall a b, In a G -> In b G -> overlap (hood a) (hood b) = ks) ->
        forall a b, In a G -> In b G -> a <> b -> nisnan (at2 L a b) = true.
Proof.
  intros vexp vln vsum part argpart D n ks k res EO PO AP Hr Hc Hb Hks Hk H. subst n. set (n := nrow D) in *.
  destruct (C14_snn_formula argpart AP "distance" D ks eq_refl) as (M & hood & E & R & C & HK & Dg & Off); try lia; try congruence.
  fold n in R, C, HK, Dg, Off.
  assert (Call : forall r, call vexp vln vsum part argpart (SSnn ks) D r -> exists M', r = Ok M' /\ nrow M' = n /\ ncol M' = n /\
     forall i j, i < n -> j < n -> at2 M' i j = at2 M i j).
  { intros r [->|Hp]; [exists M; auto|]. destruct (C15_snn_parallel_equals_serial argpart D (Z.of_nat ks) "distance") as (_ & Q).
    specialize (Q r Hp). rewrite E in Q. destruct r as [M'|]; [|contradiction]. destruct Q as (Q1 & Q2 & Q3). exists M'.
    split; [reflexivity|]. split; [congruence|]. split; [congruence|]. intros i j Hi Hj. apply Q3; congruence. }
  inversion H as [|c1 l1 M' r1 H1 H2|c1 l1 e H1]; subst c1 l1; [subst r1|destruct (Call _ H1) as (? & ? & _); discriminate].
  destruct (Call _ H1) as (M'' & Em & R' & C' & EM). injection Em as <-.
  assert (U : forall i j, i < n -> j < n -> i <> j -> is_unit (at2 M' i j) /\
      (overlap (hood i) (hood j) = ks -> neq (at2 M' i j) n0 = true)).
  { intros i j Hi Hj Hne. rewrite EM by assumption. destruct (Off i j Hi Hj Hne) as (F & _). rewrite (F eq_refl). clear F.
    assert (Ov : overlap (hood i) (hood j) <= ks).
    { destruct (HK i Hi) as ([Le _ _ _] & _). rewrite <- Le at 1. apply overlap_le. }
    destruct (frac_correct (overlap (hood i) (hood j)) ks Ov) as (F1 & F2); [lia|lia|].
    destruct (compl_correct _ F1) as (F3 & F4). split; [exact F3|]. intros Eo.
    rewrite F2, Eo in F4. unfold Rdiv in F4. rewrite Rinv_r, rnd_1, Rminus_diag_eq, rnd_0 in F4; [|reflexivity|apply not_0_INR; lia].
    rewrite Eo. rewrite Eo in F3. rewrite (cl_eq _ _ _ f64_cmp), (cl_0 _ _ _ f64_cmp), f2x_fin by apply F3. rewrite F4. cbn.
    destruct (Req_EM_T 0 0); [reflexivity|congruence]. }
  assert (HM : forall i j, i < n -> j < n -> i <> j -> dist64 (at2 M' i j)).
  { intros i j Hi Hj Hne. destruct (U i j Hi Hj Hne) as ((F & S & _) & _). split; assumption. }
  assert (Ok_ : exists L, res = Ok L /\ exists cpu nj, (1 <= workers cpu nj)%Z /\ local_scaling vexp part M' (Z.of_nat k) "distance" None cpu nj (Ok L)).
  { destruct (call_ls vexp vln vsum part argpart k M' res H2) as (cpu & nj & Hw & HL).
    destruct (C140_range vexp part M' n k None cpu nj res EO PO R' C' HM) as (L & -> & _); [rewrite train_all; exact Hk|exact Hw|exact HL|].
    exists L. split; [reflexivity|]. exists cpu, nj. auto. }
  destruct Ok_ as (L & -> & cpu & nj & Hw & HL).
  exists L, hood. split; [reflexivity|]. split; [intros i Hi; apply HK; exact Hi|].
  intros G ND HG Hn HO a b Ha Hb' Hne.
  destruct (C163_zero_radii vexp part M' n k G cpu nj (Ok L) EO PO R' C' HM Hk ND HG Hn) as (L' & EL & NaN); [|exact Hw|exact HL|].
  - intros x y Hx Hy Hxy. apply U; auto.
  - injection EL as <-. apply NaN; auto.
Qed.

(** four objects; 0, 1 and 3 all have 2 as their nearest neighbour *)
Definition star4 : arr2 f64 :=
  of_rows n0 (map (map nofZ) [[0;4;1;5]; [4;0;2;6]; [1;2;0;3]; [5;6;3;0]]%Z).

Theorem C163_witness :
  forall vexp vln vsum part argpart res,
    exp_ok vexp -> part_ok part -> argpart_ok argpart ->
    chain vexp vln vsum part argpart star4 [SSnn 1; SLs 1] res ->
    exists L, res = Ok L /\ nisnan (at2 L 0 1) = true /\ nisnan (at2 L 0 3) = true /\ nisnan (at2 L 1 3) = true.
Proof.
  intros vexp vln vsum part argpart res EO PO AP H.
  destruct (C163_snn_then_local_scaling vexp vln vsum part argpart star4 4 1 1 res EO PO AP eq_refl eq_refl) as (L & hood & -> & HK & HN);
    [lia|lia|lia|exact H|].
  exists L. split; [reflexivity|].
  assert (Only : forall i, i < 4 -> i <> 2 -> hood i = [2]).
  { intros i Hi Hne. destruct (HK i Hi) as [Le ND Bd Best]. destruct (hood i) as [|x [|]]; try discriminate.
    assert (Hx : x < 4) by (apply Bd; now left). destruct (Nat.eq_dec x 2) as [->|Hx2]; [reflexivity|]. exfalso.
    assert (B : nearer "distance" (rank_value "distance" star4 i 2) (rank_value "distance" star4 i x) = false).
    { apply Best; [lia|intros [E|[]]; congruence|now left]. }
    apply not_true_iff_false in B. apply B. clear -Hi Hne Hx Hx2.
    destruct i as [|[|[|[|]]]]; try lia; destruct x as [|[|[|[|]]]]; try lia; vm_compute; reflexivity. }
  assert (T : forall a b, In a [0;1;3] -> In b [0;1;3] -> a <> b -> nisnan (at2 L a b) = true).
  { apply HN.
    - repeat constructor; cbn; lia.
    - cbn. lia.
    - cbn. intros a Ha. lia.
    - intros a b Ha Hb. cbn in Ha, Hb. rewrite !Only by lia. reflexivity. }
  repeat split; apply T; cbn; auto; lia.
Qed.

(** ** Functions that meet the contracts *)
Definition exp64 (x : f64) : f64 := if nisnan x then nnan else if nisfin x then exp_rounded x else n0.
Lemma exp64_ok : exp_ok exp64.
Proof.
  split.
  - intros x H. unfold exp64. now rewrite H.
  - intros x H. unfold exp64. destruct (nisnan x) eqn:Nx; [destruct x; try discriminate; vm_compute in H; discriminate|].
    destruct (nisfin x) eqn:Fx; [|split; reflexivity].
    assert (Le : (B2R x <= 0)%R).
    { destruct n0_f64 as (E0 & F0). rewrite <- E0. apply nle_B2R; assumption. }
    assert (B : (0 <= rnd (exp (B2R x)) <= 1)%R).
    { pose proof (exp_pos (B2R x)). pose proof (exp_le_le _ _ Le) as P. rewrite exp_0 in P. apply rnd_unit. lra. }
    destruct (of_real_ok (exp (B2R x))) as (F & E).
    { rewrite Rabs_pos_eq by apply B. apply Rle_lt_trans with (1 := proj2 B). apply (bpow_lt radix2 0 1024). lia. }
    unfold exp_rounded. destruct n0_f64 as (E0 & F0), n1_f64 as (E1 & F1). rewrite <- E in B.
    split; apply nle_B2R; try assumption; lra.
Qed.
Lemma exp64_accurate eps : (bpow radix2 (-53) <= eps)%R -> exp_accurate eps exp64.
Proof.
  intros He x Fx Px. assert (E : exp64 x = exp_rounded x) by (destruct x; try discriminate; reflexivity). rewrite E.
  destruct (C158_exp_rounded x Fx Px) as (F & B). split; [exact F|]. apply Rle_trans with (1 := B).
  apply Rmult_le_compat_r; [|exact He]. pose proof (exp_pos (B2R x)). lra.
Qed.

(** a chain of six calls on four objects, with no hypothesis left open *)
Theorem C163_case :
  (exists r, chain exp64 ln_rounded left_to_right ref_part ref_argpart star4 [SSnn 2; SMp; SNicdm 1; SNicdm 2; SLs 1; SMp] r) /\
  (forall r, chain exp64 ln_rounded left_to_right ref_part ref_argpart star4 [SSnn 2; SMp; SNicdm 1; SNicdm 2; SLs 1; SMp] r ->
     exists M, r = Ok M /\ proper 4 M).
Proof.
  assert (He : (bpow radix2 (-53) <= INR 4 * bpow radix2 (-52) <= bpow radix2 (-20))%R).
  { change (INR 4) with (1 + 1 + 1 + 1)%R. pose proof (bpow_gt_0 radix2 (-52)). pose proof (bpow_le radix2 (-53) (-52) ltac:(lia)).
    assert (bpow radix2 (-52) * bpow radix2 2 = bpow radix2 (-50))%R by (rewrite <- bpow_plus; reflexivity).
    change (bpow radix2 2) with 4%R in *. pose proof (bpow_le radix2 (-50) (-20) ltac:(lia)). split; lra. }
  apply (C163_chain exp64 ln_rounded left_to_right (INR 4 * bpow radix2 (-52)) ref_part ref_argpart 4 star4 _ He); try reflexivity.
  - apply C158_left_to_right. lia.
  - intros x Fx Px. destruct (C158_ln_rounded x Fx Px) as (F & B). split; [exact F|]. apply Rle_trans with (1 := B).
    apply Rmult_le_compat_r; [|apply He]. pose proof (Rabs_pos (ln (B2R x))). lra.
  - apply exp64_accurate, He.
  - exact exp64_ok.
  - exact (ref_part_ok f64_cmp).
  - exact (ref_argpart_ok f64_cmp).
  - lia.
  - discriminate.
  - cbn. lia.
  - intros c Hc. cbn in Hc. repeat (destruct Hc as [<-|Hc]; [cbn; lia|]). contradiction.
Qed.

Print Assumptions C163_chain.
Print Assumptions C163_chain_of_distances.
Print Assumptions C163_zero_radii.
Print Assumptions C163_snn_then_local_scaling.
Print Assumptions C163_witness.
Print Assumptions C163_case.
