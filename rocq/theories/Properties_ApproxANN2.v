(** Property C76: local scaling, NICDM, Gaussian mutual proximity and DisSim Local
    on candidate lists of an index. *)
From Coq Require Import String.
From Coq Require Import ZArith List Arith Lia Bool Permutation Reals Lra FunctionalExtensionality.
From Verif Require Import Py Num NumT NumF32 Arr Sort S_Neighbors S_LS S_Approx S_Centering S_ApproxDSL S_ApproxANN.
From Verif Require Import M_Approx M_ApproxANN P_Neighbors P_LS P_NICDM P_ApproxMPG P_ApproxDSL P_ApproxANN2.
Import ListNotations.
Local Open Scope nat_scope.

(** The candidate rows of an exact index: [train] for the n training objects,
    whose distances are [dt], [test] for the queries, with distances [dx] *)
Definition exact_rows {V} {N : Num V} (n k : nat) (dt dx : nat -> nat -> V) (train test : list (list nat * list V)) : Prop :=
  length train = n /\
  (forall t, t < n -> exists nb, nth t train ([], []) = (nb, map (dt t) nb) /\ nearest_first (dt t) (but t n) k nb) /\
  (forall i, i < length test -> exists nb, nth i test ([], []) = (nb, map (dx i) nb) /\ nearest_first (dx i) (seq 0 n) k nb).
(** the j-th candidate of query i *)
Definition candidate {V} (test : list (list nat * list V)) (i j : nat) : nat := nth j (fst (nth i test ([], []))) 0.

Lemma but_NoDup j n : NoDup (but j n).
Proof. apply NoDup_filter, seq_NoDup. Qed.
Lemma nth_map_lt {A B} (f : A -> B) l j d e : j < length l -> nth j (map f l) e = f (nth j l d).
Proof. intros H. rewrite (nth_indep _ e (f d)) by (now rewrite map_length). apply map_nth. Qed.
Lemma firstn_map' {A B} (f : A -> B) l k : firstn k (map f l) = map f (firstn k l).
Proof. revert k. induction l as [|a l IH]; intros [|k]; cbn; congruence. Qed.

Section Candidate.
  Context {V : Type} {N : Num V}.
  Lemma candidate_of n k (dt dx : nat -> nat -> V) train test i j : exact_rows n k dt dx train test -> i < length test -> j < k ->
    candidate test i j < n /\ nth j (snd (nth i test ([], []))) nnan = dx i (candidate test i j).
  Proof.
    intros (_ & _ & H) Hi Hj. destruct (H i Hi) as (nb & E & (L & _ & I & _)). unfold candidate. rewrite E. cbn [fst snd]. split.
    - assert (In (nth j nb 0) (seq 0 n)) as C by (apply I, nth_In; lia). apply in_seq in C. lia.
    - apply nth_map_lt. lia.
  Qed.
End Candidate.

(** Local scaling: the radii are the distances of rank n_neighbors. *)
Theorem C76_ls :
  forall vsum vexp kth k n (dt dx : nat -> nat -> f32) train test,
    1 <= kth <= k -> exact_rows n k dt dx train test ->
    exists R rx rt, ls_ann vsum vexp false kth k train test = Ok R /\ nrow R = length test /\ ncol R = k /\
      (forall i, i < length test -> has_rank (map (dx i) (seq 0 n)) kth (rx i)) /\
      (forall t, t < n -> has_rank (map (dt t) (but t n)) kth (rt t)) /\
      forall i j, i < length test -> j < k ->
        let t := candidate test i j in let d := dx i t in
        at2 R i j = nsub n1 (vexp (ndiv (nmul (nofZ (-1)) (nmul d d)) (nmul (rx i) (rt t)))).
Proof.
  intros vsum vexp kth k n dt dx train test Hk H. unfold ls_ann, guard. cbn [negb andb].
  destruct (Nat.ltb_spec k kth); [lia|]. cbn [bind].
  eexists. exists (fun i => nth (kth - 1) (snd (nth i test ([], []))) nnan), (fun t => nth (kth - 1) (snd (nth t train ([], []))) nnan).
  split; [reflexivity|]. split; [reflexivity|]. split; [reflexivity|]. pose proof H as (L & HT & HQ). split; [|split].
  - intros i Hi. destruct (HQ i Hi) as (nb & E & NF). rewrite E. cbn [snd]. rewrite (nth_map_lt _ nb _ 0) by (destruct NF; lia).
    apply (nearest_rank f32_cmp _ _ k); auto using seq_NoDup.
  - intros t Ht. destruct (HT t Ht) as (nb & E & NF). rewrite E. cbn [snd]. rewrite (nth_map_lt _ nb _ 0) by (destruct NF; lia).
    apply (nearest_rank f32_cmp _ _ k); auto using but_NoDup.
  - intros i j Hi Hj. set (t := candidate test i j). set (d := dx i t). cbn [at2]. unfold M_Approx.ls_cell. destruct (candidate_of _ _ _ _ _ _ i j H Hi Hj) as (_ & ->).
    fold (candidate test i j). fold t. fold d. rewrite !nth_firstn_lt by lia. reflexivity.
Qed.

(** NICDM: the radii are the means of the n_neighbors smallest distances, whatever
    the library's np.partition does (compare C70_nicdm_depends_on_partition). *)
Theorem C76_nicdm :
  forall vexp kth k n (dt dx : nat -> nat -> R) train test sx st,
    1 <= kth <= k -> exact_rows n k (fun t l => XFin (dt t l)) (fun i l => XFin (dx i l)) train test ->
    (forall i, i < length test -> k_smallest (map (fun l => XFin (dx i l)) (seq 0 n)) kth (map XFin (sx i))) ->
    (forall t, t < n -> k_smallest (map (fun l => XFin (dt t l)) (but t n)) kth (map XFin (st t))) ->
    exists R, ls_ann xsum vexp true kth k train test = Ok R /\
      forall i j, i < length test -> j < k ->
        let t := candidate test i j in
        at2 R i j = ndiv (XFin (dx i t)) (nsqrt (XFin (rmean (sx i) * rmean (st t)))).
Proof.
  intros vexp kth k n dt dx train test sx st Hk H Hx Ht. eexists. split; [reflexivity|]. intros i j Hi Hj t.
  destruct (candidate_of _ _ _ _ _ _ i j H Hi Hj) as (Hc & Ec). cbn [at2]. rewrite Ec. fold (candidate test i j). fold t. fold t in Hc.
  destruct H as (L & HT & HQ). unfold M_Approx.ls_cell.
  assert (M : forall (d : nat -> R) pool nb s, NoDup pool -> nearest_first (fun l => XFin (d l)) pool k nb ->
     k_smallest (map (fun l => XFin (d l)) pool) kth (map XFin s) ->
     vmean_ xsum (firstn kth (map (fun l => XFin (d l)) nb)) = XFin (rmean s)).
  { intros d pool nb s ND NF Ks. rewrite firstn_map'. pose proof (nearest_k_smallest xr_cmp _ _ k nb kth ND (proj2 Hk) NF) as Ks'.
    assert (F : forall x, In x (map (fun l => XFin (d l)) pool) -> xisfin x = true) by (intros x Hx'; apply in_map_iff in Hx' as (a & <- & _); reflexivity).
    pose proof (k_smallest_sum _ _ _ _ F Ks Ks') as S. rewrite <- (map_map d XFin) in S |- *.
    assert (E : forall l, map fin_of (map XFin l) = l) by (intros l; rewrite map_map; cbn; apply map_id). rewrite !E in S.
    rewrite vmean_xr.
    - f_equal. unfold rmean. rewrite <- S. f_equal. f_equal. destruct Ks as (L1 & _). rewrite map_length in L1.
      destruct NF as (L2 & _). rewrite map_length, firstn_length. lia.
    - destruct NF as (L2 & _). intros C. apply (f_equal (@length R)) in C. rewrite map_length, firstn_length in C. cbn in C. lia. }
  destruct (HQ i Hi) as (nb & E1 & NF1). destruct (HT t Hc) as (nt & E2 & NF2). rewrite E1, E2. cbn [snd].
  rewrite (M _ _ _ (sx i) (seq_NoDup n 0) NF1) by (now apply Hx).
  rewrite (M _ _ _ (st t) (but_NoDup t n) NF2) by (now apply Ht). reflexivity.
Qed.

(** DEFECT: if n_samples < n_neighbors, local scaling raises IndexError, but only
    when transforming; NICDM and DisSim Local go on and silently use n_samples
    neighbours. *)
Theorem C76_few_samples :
  forall vsum vexp metric kth k (Xt X : arr2 f32) train test,
    k < kth ->
    (forall r, In r train \/ In r test -> length (fst r) = k /\ length (snd r) = k) ->
    ls_ann vsum vexp false kth k train test = Raise IndexError /\
    (exists R R', ls_ann vsum vexp true kth k train test = Ok R /\ ls_ann vsum vexp true k k train test = Ok R' /\
       nrow R = nrow R' /\ ncol R = ncol R' /\ forall i j, i < length test -> j < k -> at2 R i j = at2 R' i j) /\
    dsl_ann vsum metric kth k Xt X train test = dsl_ann vsum metric k k Xt X train test.
Proof.
  intros vsum vexp metric kth k Xt X train test Hk HL.
  assert (FS : forall i, firstn kth (snd (nth i test ([], []))) = firstn k (snd (nth i test ([], [])))).
  { intros i. destruct (Nat.lt_ge_cases i (length test)) as [C|C].
    - destruct (HL (nth i test ([], []))) as (_ & L); [right; now apply nth_In|]. rewrite !firstn_all2; auto; lia.
    - rewrite nth_overflow by exact C. cbn. now rewrite !firstn_nil. }
  assert (FT : forall i, firstn kth (snd (nth i train ([], []))) = firstn k (snd (nth i train ([], [])))).
  { intros i. destruct (Nat.lt_ge_cases i (length train)) as [C|C].
    - destruct (HL (nth i train ([], []))) as (_ & L); [left; now apply nth_In|]. rewrite !firstn_all2; auto; lia.
    - rewrite nth_overflow by exact C. cbn. now rewrite !firstn_nil. }
  assert (GS : forall i, firstn kth (fst (nth i test ([], []))) = firstn k (fst (nth i test ([], [])))).
  { intros i. destruct (Nat.lt_ge_cases i (length test)) as [C|C].
    - destruct (HL (nth i test ([], []))) as (L & _); [right; now apply nth_In|]. rewrite !firstn_all2; auto; lia.
    - rewrite nth_overflow by exact C. cbn. now rewrite !firstn_nil. }
  assert (GT : forall i, firstn kth (fst (nth i train ([], []))) = firstn k (fst (nth i train ([], [])))).
  { intros i. destruct (Nat.lt_ge_cases i (length train)) as [C|C].
    - destruct (HL (nth i train ([], []))) as (L & _); [left; now apply nth_In|]. rewrite !firstn_all2; auto; lia.
    - rewrite nth_overflow by exact C. cbn. now rewrite !firstn_nil. }
  split; [|split].
  - unfold ls_ann, guard. cbn [negb andb]. destruct (Nat.ltb_spec k kth); [reflexivity|lia].
  - eexists. eexists. split; [reflexivity|]. split; [reflexivity|]. split; [reflexivity|]. split; [reflexivity|].
    intros i j Hi Hj. cbn [at2]. unfold M_Approx.ls_cell. now rewrite FS, FT.
  - unfold dsl_ann. destruct (guard _ _); cbn [bind]; [|reflexivity]. do 2 f_equal.
    apply functional_extensionality. intros i. apply functional_extensionality. intros j. now rewrite GS, GT.
Qed.

(** Gaussian mutual proximity: all moments are those of the listed candidates. *)
Theorem C76_mpg :
  forall sf k n (dt dx : nat -> nat -> R) train test,
    1 <= k -> exact_rows n k (fun t l => XFin (dt t l)) (fun i l => XFin (dx i l)) train test ->
    forall i j, i < length test -> j < k ->
      let t := candidate test i j in
      let own := map (dx i) (fst (nth i test ([], []))) in let other := map (dt t) (fst (nth t train ([], []))) in
      at2 (mpg_ann xsum sf k train test) i j =
        nsub n1 (nmul (sf (XFin (dx i t)) (XFin (rmean own)) (XFin (rstd own)))
                      (sf (XFin (dx i t)) (XFin (rmean other)) (XFin (rstd other)))).
Proof.
  intros sf k n dt dx train test Hk H i j Hi Hj t own other. destruct (candidate_of _ _ _ _ _ _ i j H Hi Hj) as (Hc & Ec).
  unfold mpg_ann. cbn [at2]. rewrite Ec. fold (candidate test i j). fold t. fold t in Hc. pose proof H as (L & HT & HQ).
  destruct (HQ i Hi) as (nb & E1 & NF1). destruct (HT t Hc) as (nt & E2 & NF2).
  assert (NN : forall l, nonnan (map XFin l) = map XFin l) by (intros l; unfold nonnan; induction l as [|a l IH]; cbn in *; congruence).
  rewrite (nth_map_lt (fun r => vmean_ xsum (snd r)) train t ([], [])) by lia.
  rewrite (nth_map_lt (fun r => vstd xsum (snd r)) train t ([], [])) by lia.
  unfold own, other. rewrite E1, E2. cbn [fst snd].
  rewrite <- !(map_map (dx i) XFin), <- !(map_map (dt t) XFin), NN.
  rewrite !vmean_xr, !vstd_xr; [reflexivity| | | |]; intros C; apply (f_equal (@length R)) in C; rewrite map_length in C; destruct NF1, NF2; cbn in C; lia.
Qed.

Lemma rmean_le_bound l b : l <> [] -> (forall x, In x l -> (x <= b)%R) -> (rmean l <= b)%R.
Proof.
  intros Hn H. unfold rmean. assert (P : (0 < INR (length l))%R) by (apply lt_0_INR; destruct l; [congruence|cbn; lia]).
  apply (Rmult_le_reg_r (INR (length l))); [exact P|]. replace (rsum l / INR (length l) * INR (length l))%R with (rsum l) by (field; lra).
  clear Hn P. induction l as [|a l IH]; [cbn; lra|]. cbn [length]. rewrite S_INR. change (rsum (a :: l)) with (a + rsum l)%R. specialize (H a (or_introl eq_refl)) as Ha.
  assert (rsum l <= b * INR (length l))%R by (apply IH; intros x Hx; apply H; now right). lra.
Qed.
Lemma rsum_ge_bound l b : (forall x, In x l -> (b <= x)%R) -> (b * INR (length l) <= rsum l)%R.
Proof.
  induction l as [|a l IH]; intros H; [cbn; lra|]. cbn [length]. rewrite S_INR. change (rsum (a :: l)) with (a + rsum l)%R. specialize (H a (or_introl eq_refl)) as Ha.
  assert (b * INR (length l) <= rsum l)%R by (apply IH; intros x Hx; apply H; now right). lra.
Qed.

(** DEFECT: these moments are biased.  The mean over an exact candidate list is
    never larger than the mean over all objects, and smaller as soon as an
    object left out is farther than the farthest candidate. *)
Theorem C76_mpg_bias :
  forall (d : nat -> R) pool k nb,
    NoDup pool -> 1 <= k -> nearest_first (fun l => XFin (d l)) pool k nb ->
    (rmean (map d nb) <= rmean (map d pool))%R /\
    ((exists l, In l pool /\ (d (nth (k - 1) nb 0%nat) < d l)%R) -> (rmean (map d nb) < rmean (map d pool))%R).
Proof.
  intros d pool k nb ND Hk H. destruct (nearest_split _ _ _ _ ND H) as (rest & P & Hr).
  destruct H as (L & _ & _ & As & Out).
  assert (As' : forall p q, p <= q -> q < k -> (d (nth p nb 0%nat) <= d (nth q nb 0%nat))%R).
  { intros p q Hpq Hq. specialize (As p q Hpq Hq). cbn in As. destruct (Rle_dec _ _) in As; [assumption|discriminate]. }
  assert (Out' : forall a l, In a nb -> In l rest -> (d a <= d l)%R).
  { intros a l Ha Hl. destruct (Hr l Hl) as (Hl1 & Hl2). specialize (Out a l Ha Hl1 Hl2). cbn in Out. destruct (Rle_dec _ _) in Out; [assumption|discriminate]. }
  set (m := rmean (map d nb)).
  assert (Nn : map d nb <> []) by (intros C; apply (f_equal (@length R)) in C; rewrite map_length in C; cbn in C; lia).
  assert (Pk : (0 < INR k)%R) by (apply lt_0_INR; lia).
  assert (Sm : rsum (map d nb) = (m * INR k)%R) by (unfold m, rmean; rewrite map_length, L; field; lra).
  assert (Gr : forall x, In x (map d rest) -> (m <= x)%R).
  { intros x Hx. apply in_map_iff in Hx as (l & <- & Hl). apply rmean_le_bound; [exact Nn|]. intros y Hy. apply in_map_iff in Hy as (a & <- & Ha). now apply Out'. }
  assert (E : rmean (map d pool) = ((m * INR k + rsum (map d rest)) / (INR k + INR (length rest)))%R).
  { unfold rmean. rewrite map_length, (Permutation_length P), app_length, plus_INR, L. f_equal.
    rewrite (rsum_perm _ (map d (nb ++ rest))) by (now apply Permutation_map). now rewrite map_app, rsum_app, Sm. }
  assert (Pr : (0 <= INR (length rest))%R) by apply pos_INR.
  rewrite E. pose proof (rsum_ge_bound _ _ Gr) as G. rewrite map_length in G.
  split.
  - apply (Rmult_le_reg_r (INR k + INR (length rest))); [lra|]. unfold Rdiv. rewrite Rmult_assoc, Rinv_l by lra. lra.
  - intros (l & Hl & Hlt).
    assert (Il : In l rest).
    { apply (Permutation_in _ P) in Hl. apply in_app_iff in Hl as [C|C]; [|exact C]. exfalso.
      apply (In_nth _ _ 0) in C as (p & Hp & <-). specialize (As' p (k - 1) ltac:(lia) ltac:(lia)). lra. }
    apply in_split in Il as (r1 & r2 & ->).
    assert (G' : (m * INR (length (r1 ++ r2)) <= rsum (map d (r1 ++ r2)))%R).
    { rewrite <- (map_length d). apply rsum_ge_bound. intros x Hx. apply Gr. rewrite map_app in *. cbn. apply in_app_iff in Hx. apply in_app_iff. cbn. tauto. }
    assert (Ml : (m < d l)%R).
    { apply Rle_lt_trans with (d (nth (k - 1) nb 0%nat)); [|exact Hlt]. apply rmean_le_bound; [exact Nn|].
      intros y Hy. apply in_map_iff in Hy as (a & <- & Ha). apply (In_nth _ _ 0) in Ha as (p & Hp & <-). apply As'; lia. }
    assert (Sr : rsum (map d (r1 ++ l :: r2)) = (d l + rsum (map d (r1 ++ r2)))%R) by (rewrite !map_app, !rsum_app; change (rsum (map d (l :: r2))) with (d l + rsum (map d r2))%R; lra).
    assert (Lr : INR (length (r1 ++ l :: r2)) = (1 + INR (length (r1 ++ r2)))%R) by (rewrite !app_length; cbn [length]; rewrite Nat.add_succ_r, S_INR; lra).
    rewrite Sr, Lr. pose proof (pos_INR (length (r1 ++ r2))).
    apply (Rmult_lt_reg_r (INR k + (1 + INR (length (r1 ++ r2))))); [lra|]. unfold Rdiv. rewrite Rmult_assoc, Rinv_l by lra. lra.
Qed.

(** DisSim Local: centroids of the n_neighbors nearest candidates, no dependence
    on np.argpartition (compare C71_depends_on_argpartition). *)
Theorem C76_dsl :
  forall metric kth k nq n m (q x : nat -> nat -> R) train test,
    1 <= kth <= k -> length test = nq -> (metric = "sqeuclidean" \/ metric = "cosine")%string ->
    (forall i, has_direction metric m (q i)) -> (forall i, has_direction metric m (x i)) ->
    exact_rows n k (fun t l => XFin (distance_of metric m (x t) (x l))) (fun i l => XFin (distance_of metric m (q i) (x l))) train test ->
    exists R nx nt, dsl_ann xsum metric kth k (rmat n m x) (rmat nq m q) train test = Ok R /\
      (forall i, i < nq -> top_k Rle (fun l => distance_of metric m (q i) (x l)) (seq 0 n) kth (nx i)) /\
      (forall t, t < n -> top_k Rle (fun l => distance_of metric m (x t) (x l)) (but t n) kth (nt t)) /\
      forall i j, i < nq -> j < k ->
        let t := candidate test i j in
        has_direction metric m (centroidR x (nx i)) -> has_direction metric m (centroidR x (nt t)) ->
        at2 R i j = XFin (distance_of metric m (q i) (x t) - distance_of metric m (q i) (centroidR x (nx i))
                          - distance_of metric m (x t) (centroidR x (nt t)))%R.
Proof.
  intros metric kth k nq n m q x train test Hk Hnq Hm Dq Dx H.
  assert (KM : known_metric metric = true) by (unfold known_metric; destruct Hm as [->| ->]; reflexivity).
  assert (TK : forall (d : nat -> R) pool nb, nearest_first (fun l => XFin (d l)) pool k nb -> top_k Rle d pool kth (firstn kth nb)).
  { intros d pool nb NF. apply (nearest_firstn _ _ _ _ kth (proj2 Hk)) in NF as (A & B & C & _ & D). split; [exact A|]. split; [exact B|]. split; [exact C|].
    intros a b Ha Hb Hn. specialize (D a b Ha Hb Hn). cbn in D. destruct (Rle_dec _ _) in D; [assumption|discriminate]. }
  unfold dsl_ann, guard. rewrite KM. cbn [negb bind].
  eexists. exists (fun i => firstn kth (fst (nth i test ([], [])))), (fun t => firstn kth (fst (nth t train ([], [])))).
  split; [reflexivity|]. pose proof H as (L & HT & HQ). split; [|split].
  - intros i Hi. destruct (HQ i) as (nb & -> & NF); [lia|]. now apply TK.
  - intros t Ht. destruct (HT t Ht) as (nb & -> & NF). now apply TK.
  - intros i j Hi Hj. set (t := candidate test i j). intros D1 D2. destruct (candidate_of _ _ _ _ _ _ i j H ltac:(lia) Hj) as (Hc & Ec). cbn [at2].
    rewrite Ec. fold (candidate test i j). fold t. fold t in Hc.
    change (ncol (rmat nq m q)) with m. change (ncol (rmat n m x)) with m.
    assert (NE : forall nb pool (d : nat -> xr), nearest_first d pool k nb -> firstn kth nb <> []).
    { intros nb pool d (A & _) C. apply (f_equal (@length nat)) in C. rewrite firstn_length in C. cbn in C. lia. }
    destruct (HQ i ltac:(lia)) as (nb & E1 & NF1). destruct (HT t Hc) as (nt & E2 & NF2). rewrite E1 in *. rewrite E2 in *. cbn [fst snd] in *.
    rewrite (dist_to_cent_xr metric m (q i) (centroidR x (firstn kth nb))); auto.
    2:{ intros f. apply centroid_xr; [eapply NE, NF1|reflexivity]. }
    rewrite (dist_to_cent_xr metric m (x t) (centroidR x (firstn kth nt))); auto.
    intros f. apply centroid_xr; [eapply NE, NF2|reflexivity].
Qed.

(** Objects at 0, 1 and 3 on a line, a query at 4; one or two candidates. *)
Definition zdist (a b : Z) : Z := (Z.abs (a - b))%Z.
Definition pos (i : nat) : Z := nth i [0; 1; 3]%Z 0%Z.
Definition dt32 (t l : nat) : f32 := f32_of (nofZ (zdist (pos t) (pos l))).
Definition dx32 (i l : nat) : f32 := f32_of (nofZ (zdist 4 (pos l))).
Definition rows_of {V} (d : nat -> nat -> V) (nbs : list (list nat)) : list (list nat * list V) :=
  map (fun p => (snd p, map (d (fst p)) (snd p))) (combine (seq 0 (length nbs)) nbs).
Ltac nearest3 tac :=
  split; [reflexivity|]; split; [repeat constructor; cbn; lia|]; split; [intros x Hx; cbn in Hx |- *; lia|]; split;
  [intros [|[|p]] [|[|q]] Hpq Hq; try lia; tac
  |intros a l Ha Hl Hn; cbn in Ha, Hl, Hn; repeat (destruct Ha as [<-|Ha]; [|]); try contradiction;
   repeat (destruct Hl as [<-|Hl]; [|]); try contradiction; try lia; tac].
Example ex_C76_rows : exact_rows 3 2 dt32 dx32 (rows_of dt32 [[1; 2]; [0; 2]; [1; 0]]) (rows_of dx32 [[2; 1]]).
Proof.
  split; [reflexivity|]. split.
  - intros [|[|[|t]]] Ht; try lia; eexists; (split; [reflexivity|]); nearest3 ltac:(vm_compute; reflexivity).
  - intros [|i] Hi; [|cbn in Hi; lia]. eexists. split; [reflexivity|]. nearest3 ltac:(vm_compute; reflexivity).
Qed.
Definition dtR (t l : nat) : xr := XFin (IZR (zdist (pos t) (pos l))).
Definition dxR (i l : nat) : xr := XFin (IZR (zdist 4 (pos l))).
Example ex_C76_rows_exact : exact_rows 3 2 dtR dxR (rows_of dtR [[1; 2]; [0; 2]; [1; 0]]) (rows_of dxR [[2; 1]]).
Proof.
  assert (G : forall a b, (a <= b)%Z -> nle (XFin (IZR a)) (XFin (IZR b)) = true).
  { intros a b H. cbn. destruct (Rle_dec (IZR a) (IZR b)) as [|C]; [reflexivity|]. exfalso. apply C. now apply IZR_le. }
  split; [reflexivity|]. split.
  - intros [|[|[|t]]] Ht; try lia; eexists; (split; [reflexivity|]); nearest3 ltac:(apply G; vm_compute; discriminate).
  - intros [|i] Hi; [|cbn in Hi; lia]. eexists. split; [reflexivity|]. nearest3 ltac:(apply G; vm_compute; discriminate).
Qed.
(** for C76_mpg_bias: one candidate of object 0, object 2 is farther *)
Example ex_C76_bias : nearest_first (dtR 0) (but 0 3) 1 [1] /\ (IZR (zdist (pos 0) (pos 1)) < IZR (zdist (pos 0) (pos 2)))%R.
Proof.
  assert (G : forall a b, (a <= b)%Z -> nle (XFin (IZR a)) (XFin (IZR b)) = true).
  { intros a b H. cbn. destruct (Rle_dec (IZR a) (IZR b)) as [|C]; [reflexivity|]. exfalso. apply C. now apply IZR_le. }
  split; [|vm_compute; lra]. nearest3 ltac:(apply G; vm_compute; discriminate).
Qed.

Print Assumptions C76_ls.
Print Assumptions C76_nicdm.
Print Assumptions C76_few_samples.
Print Assumptions C76_mpg.
Print Assumptions C76_mpg_bias.
Print Assumptions C76_dsl.
