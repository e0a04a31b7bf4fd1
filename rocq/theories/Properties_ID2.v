(** Properties C97 and C98 (intrinsic_dimension.py): small neighbourhoods, ties and
    duplicates; and examples for the hypotheses of C95-C99. *)
From Coq Require Import String.
From Coq Require Import ZArith Reals Lra Lia Psatz List Arith Bool Permutation Sorting.Sorted.
From Verif Require Import Py Num NumT Arr Sort S_Approx S_Centering S_ID M_GK M_MPDist M_ID.
From Verif Require Import P_GK3 P_Vec P_ApproxMPG P_MPDist2 P_ID Properties_ID.
Import ListNotations.
Local Open Scope R_scope.

Lemma xsum_nan l : In XNaN l -> xsum l = XNaN.
Proof.
  induction l as [|a l IH]; [intros []|]. intros [->|H]; [reflexivity|]. change (xadd a (xsum l) = XNaN). rewrite IH by assumption. now destruct a.
Qed.
Lemma xsum_pinf l : In XPInf l -> (forall v, In v l -> v = XPInf \/ exists r, v = XFin r) -> xsum l = XPInf.
Proof.
  intros H F. assert (G : forall k, (forall v, In v k -> v = XPInf \/ exists r, v = XFin r) -> xsum k = XPInf \/ exists r, xsum k = XFin r).
  { induction k as [|a k IH]; intros Fk; [right; now exists 0|]. change (xsum (a :: k)) with (xadd a (xsum k)).
    destruct (IH (fun v Hv => Fk v (or_intror Hv))) as [->|(r & ->)], (Fk a (or_introl eq_refl)) as [->|(s & ->)]; cbn; eauto. }
  induction l as [|a l IH]; [destruct H|]. change (xsum (a :: l)) with (xadd a (xsum l)). destruct H as [->|H].
  - destruct (G l (fun v Hv => F v (or_intror Hv))) as [->|(r & ->)]; reflexivity.
  - rewrite IH by (auto; intros; apply F; now right). destruct (F a (or_introl eq_refl)) as [->|(s & ->)]; reflexivity.
Qed.
Lemma xsum_ninf l : In XNInf l -> (forall v, In v l -> v = XNInf \/ exists r, v = XFin r) -> xsum l = XNInf.
Proof.
  intros H F. assert (G : forall k, (forall v, In v k -> v = XNInf \/ exists r, v = XFin r) -> xsum k = XNInf \/ exists r, xsum k = XFin r).
  { induction k as [|a k IH]; intros Fk; [right; now exists 0|]. change (xsum (a :: k)) with (xadd a (xsum k)).
    destruct (IH (fun v Hv => Fk v (or_intror Hv))) as [->|(r & ->)], (Fk a (or_introl eq_refl)) as [->|(s & ->)]; cbn; eauto. }
  induction l as [|a l IH]; [destruct H|]. change (xsum (a :: l)) with (xadd a (xsum l)). destruct H as [->|H].
  - destruct (G l (fun v Hv => F v (or_intror Hv))) as [->|(r & ->)]; reflexivity.
  - rewrite IH by (auto; intros; apply F; now right). destruct (F a (or_introl eq_refl)) as [->|(s & ->)]; reflexivity.
Qed.
Lemma xinf_div_pos r : 0 < r -> xdiv XPInf (XFin r) = XPInf /\ xdiv XNInf (XFin r) = XNInf.
Proof. intros H. cbn. destruct (Rlt_dec r 0); [lra|]. now split. Qed.
Lemma xdhat_zero k : xdhat 0 k = if (k =? 2)%nat then XNaN else if (k <? 2)%nat then XPInf else XNInf.
Proof.
  unfold xdhat. cbn [xdiv]. destruct (Req_EM_T (- 0) 0) as [_|C]; [|lra]. unfold rsgn.
  destruct (Nat.eqb_spec k 2) as [->|H2].
  - change (INR 2) with 2. destruct (Rlt_dec (2 - 2) 0); [lra|]. destruct (Rlt_dec 0 (2 - 2)); [lra|]. reflexivity.
  - destruct (Nat.ltb_spec k 2) as [L|G].
    + apply lt_INR in L. change (INR 2) with 2 in L. destruct (Rlt_dec (2 - INR k) 0); [lra|]. destruct (Rlt_dec 0 (2 - INR k)); [|lra]. reflexivity.
    + assert (L : (2 < k)%nat) by lia. apply lt_INR in L. change (INR 2) with 2 in L. destruct (Rlt_dec (2 - INR k) 0); [|lra]. reflexivity.
Qed.
Lemma xdhat_two q : q <> 0 -> xdhat q 2 = XFin 0.
Proof. intros H. rewrite xdhat_fin by exact H. f_equal. change (INR 2) with 2. unfold Rdiv. ring. Qed.
Lemma log_ratios_one l : log_ratios l 1 = 0.
Proof. reflexivity. Qed.
Lemma one_over_zero : xdiv (XFin 1) (XFin 0) = XPInf.
Proof. cbn. destruct (Req_EM_T 0 0); [|lra]. unfold rsgn. destruct (Rlt_dec 1 0); [lra|]. destruct (Rlt_dec 0 1); [reflexivity|lra]. Qed.

Section Small.
  Variables (sort : list xr -> list xr) (order : list nat) (X : arr2 xr) (n m : nat) (x : nat -> nat -> R).
  Variables (T : nat -> list R) (e : string) (trafo : option string) (mem : Z).
  Hypothesis (SO : sort_ok sort) (P : Permutation order (seq 0 n)) (FX : fin2 X n m x) (Ht : trafo_ok trafo)
    (He : known_estimator e) (HT : nearest_dists n m (transformed trafo n x) T).
  Hypothesis (H0 : forall i, (i < n)%nat -> 0 < kth_dist (T i) 1).
  Lemma small_core k1 k2 : (1 <= k1 <= k2)%nat -> (k2 < n)%nat ->
    intrinsic_dimension xsum xln sort order X (Z.of_nat k1) (Z.of_nat k2) e "vector" trafo mem
    = Ok (xest e (fun i k => log_ratios (T i) k) n k1 k2).
  Proof.
    intros Hk Hn. rewrite (id_core sort order X n m x T k1 k2 e trafo mem) by assumption. f_equal.
    apply xest_ext. intros i k Hi _. f_equal. apply map_eff_id.
    apply ssorted_pos; [apply (HT i Hi)|rewrite (nearest_len n m _ T i Hi HT); lia|now apply H0].
  Qed.
  Lemma small_pos k1 k i : (i < n)%nat -> (1 <= k1 <= k)%nat -> (k < n)%nat -> kth_dist (T i) 1 < kth_dist (T i) k1 ->
    0 < log_ratios (T i) k.
  Proof.
    intros Hi Hk Hn H. apply (log_ratios_pos (T i) k1 k); auto; [apply (HT i Hi)|rewrite (nearest_len n m _ T i Hi HT); lia].
  Qed.
  Lemma mean_inv_pos k : (3 <= k)%nat -> (0 < n)%nat -> (forall i, (i < n)%nat -> 0 < log_ratios (T i) k) ->
    0 < rmean (map (fun i => / local_dim (T i) k) (seq 0 n)).
  Proof.
    intros Hk Hn H. unfold rmean. apply Rmult_lt_0_compat.
    - apply rsum_pos; [destruct n; [lia|discriminate]|]. intros v Hv. apply in_map_iff in Hv as (i & <- & Hi). apply in_seq in Hi.
      apply Rinv_0_lt_compat. unfold local_dim. apply Rmult_lt_0_compat; [|apply Rinv_0_lt_compat, H; lia].
      apply le_INR in Hk. change (INR 3) with (1 + 1 + 1) in Hk. lra.
    - apply Rinv_0_lt_compat. rewrite map_length, seq_length. now apply lt_0_INR.
  Qed.
  (** the harmonic mean for two neighbours *)
  Lemma mackay_two : (0 < n)%nat -> (forall i, (i < n)%nat -> log_ratios (T i) 2 <> 0) ->
    xdiv (XFin 1) (xdiv (xsum (map (fun i => xdiv (XFin 1) (xdhat (log_ratios (T i) 2) 2)) (seq 0 n))) (XFin (INR n))) = XFin 0.
  Proof.
    intros Hn H. rewrite (map_ext_in _ (fun _ => XPInf)).
    - rewrite xsum_pinf; [rewrite (proj1 (xinf_div_pos _ (lt_0_INR n Hn))); reflexivity| |].
      + apply in_map_iff. exists 0%nat. split; [reflexivity|apply in_seq; lia].
      + intros v Hv. apply in_map_iff in Hv as (i & <- & _). now left.
    - intros i Hi. apply in_seq in Hi. rewrite xdhat_two by (apply H; lia). apply one_over_zero.
  Qed.
  Lemma ks_cons k1 k2 : (k1 <= k2)%nat -> seq k1 (k2 + 1 - k1) = k1 :: seq (k1 + 1) (k2 + 1 - (k1 + 1)).
  Proof. intros H. replace (k2 + 1 - k1)%nat with (S (k2 + 1 - (k1 + 1))) by lia. cbn [seq]. now rewrite (Nat.add_1_r k1). Qed.

  Lemma k1_one k2 : (1 <= k2)%nat -> (k2 < n)%nat ->
    (forall i, (i < n)%nat -> (2 <= k2)%nat -> kth_dist (T i) 1 < kth_dist (T i) 2) ->
    xest e (fun i k => log_ratios (T i) k) n 1 k2 = XPInf.
  Proof.
    intros Hk Hn HD.
    assert (LP : forall i k, (i < n)%nat -> (2 <= k <= k2)%nat -> 0 < log_ratios (T i) k).
    { intros i k Hi Hkk. apply (small_pos 2 k i Hi); try lia. apply HD; lia. }
    assert (PK : 0 < INR (length (seq 1 (k2 + 1 - 1)))) by (rewrite seq_length; apply lt_0_INR; lia).
    destruct He as [->| ->]; unfold xest; cbv zeta; cbn [String.eqb Ascii.eqb Bool.eqb].
    - rewrite xsum_pinf; [apply xinf_div_pos; rewrite mult_INR; apply Rmult_lt_0_compat; [apply lt_0_INR; lia|exact PK]| |].
      + apply in_flat_map. exists 0%nat. split; [apply in_seq; lia|]. apply in_map_iff. exists 1%nat.
        split; [rewrite log_ratios_one; apply xdhat_zero|apply in_seq; lia].
      + intros v Hv. apply in_flat_map in Hv as (i & Hi & Hv). apply in_map_iff in Hv as (k & <- & Hkk). apply in_seq in Hi, Hkk.
        destruct (Nat.eq_dec k 1) as [->|]; [left; rewrite log_ratios_one; apply xdhat_zero|right].
        specialize (LP i k ltac:(lia) ltac:(lia)). eexists. apply xdhat_fin. lra.
    - rewrite xsum_pinf; [now apply xinf_div_pos| |].
      + apply in_map_iff. exists 1%nat. split; [|apply in_seq; lia].
        rewrite (xs_fin _ (fun _ => 0)).
        * rewrite rsum_0, xdiv_fin by (apply not_0_INR; lia). unfold Rdiv. rewrite Rmult_0_l. apply one_over_zero.
        * intros i _. rewrite log_ratios_one, xdhat_zero. reflexivity.
      + intros v Hv. apply in_map_iff in Hv as (k & <- & Hkk). apply in_seq in Hkk.
        destruct (Nat.eq_dec k 1) as [->|N1].
        { left. rewrite (xs_fin _ (fun _ => 0)).
          * rewrite rsum_0, xdiv_fin by (apply not_0_INR; lia). unfold Rdiv. rewrite Rmult_0_l. apply one_over_zero.
          * intros i _. rewrite log_ratios_one, xdhat_zero. reflexivity. }
        right. destruct (Nat.eq_dec k 2) as [->|N2].
        { exists 0. apply mackay_two; [lia|]. intros i Hi. specialize (LP i 2%nat Hi ltac:(lia)). lra. }
        rewrite mackay_k_fin by (try lia; intros i Hi; specialize (LP i k Hi ltac:(lia)); lra).
        assert (MP := mean_inv_pos k ltac:(lia) ltac:(lia) (fun i Hi => LP i k Hi ltac:(lia))).
        rewrite xdiv_fin by lra. eexists. reflexivity.
  Qed.

  Lemma k1_two k2 : (3 <= k2)%nat -> (k2 < n)%nat ->
    (forall i, (i < n)%nat -> kth_dist (T i) 1 < kth_dist (T i) 2) ->
    xest e (fun i k => log_ratios (T i) k) n 2 k2 = XFin ((INR k2 - 2) / (INR k2 - 1) * estimate e T n 3 k2).
  Proof.
    intros Hk Hn HD.
    assert (LP : forall i k, (i < n)%nat -> (2 <= k <= k2)%nat -> 0 < log_ratios (T i) k).
    { intros i k Hi Hkk. apply (small_pos 2 k i Hi); try lia. apply HD; lia. }
    assert (KR : 3 <= INR k2) by (apply le_INR in Hk; change (INR 3) with (1 + 1 + 1) in Hk; lra).
    assert (NR : 0 < INR n) by (apply lt_0_INR; lia).
    assert (L2 : INR (k2 + 1 - 2) = INR k2 - 1) by (replace (k2 + 1 - 2)%nat with (k2 - 1)%nat by lia; rewrite minus_INR by lia; reflexivity).
    assert (L3 : INR (k2 + 1 - 3) = INR k2 - 2) by (replace (k2 + 1 - 3)%nat with (k2 - 2)%nat by lia; rewrite minus_INR by lia; reflexivity).
    destruct He as [->| ->]; unfold estimate; cbn [String.eqb Ascii.eqb Bool.eqb].
    - rewrite xest_levina_fin by (try lia; intros i k Hi Hkk; specialize (LP i k Hi Hkk); lra). f_equal.
      unfold levina_estimate, rmean. rewrite !(flat_map_len (fun i k => local_dim (T i) k)), !seq_length, !mult_INR, L2, L3.
      assert (ES : rsum (flat_map (fun i => map (local_dim (T i)) (seq 2 (k2 + 1 - 2))) (seq 0 n))
                   = rsum (flat_map (fun i => map (local_dim (T i)) (seq 3 (k2 + 1 - 3))) (seq 0 n))).
      { rewrite (ks_cons 2 k2) by lia. change (2 + 1)%nat with 3%nat. generalize (seq 0 n). intros l. induction l as [|i l IH]; [reflexivity|].
        cbn [flat_map]. rewrite !rsum_app, IH. f_equal. cbn [map].
        set (r := map (local_dim (T i)) _). change (rsum (local_dim (T i) 2 :: r)) with (local_dim (T i) 2 + rsum r).
        unfold local_dim at 1. change (INR 2) with 2. unfold Rdiv. ring. }
      rewrite ES. field. lra.
    - unfold xest. cbv zeta. cbn [String.eqb Ascii.eqb Bool.eqb]. rewrite (ks_cons 2 k2) by lia. cbn [map].
      rewrite mackay_two by (try lia; intros i Hi; specialize (LP i 2%nat Hi ltac:(lia)); lra).
      change (2 + 1)%nat with 3%nat. set (g := fun k : nat => _).
      assert (EG : forall k, In k (seq 3 (k2 + 1 - 3)) -> g k = XFin (/ rmean (map (fun i => / local_dim (T i) k) (seq 0 n)))).
      { intros k Hkk. apply in_seq in Hkk. unfold g.
        rewrite mackay_k_fin by (try lia; intros i Hi; specialize (LP i k Hi ltac:(lia)); lra).
        assert (MP := mean_inv_pos k ltac:(lia) ltac:(lia) (fun i Hi => LP i k Hi ltac:(lia))).
        rewrite xdiv_fin by lra. f_equal. lra. }
      set (gs := map g (seq 3 (k2 + 1 - 3))). change (xsum (XFin 0 :: gs)) with (xadd (XFin 0) (xsum gs)). unfold gs.
      rewrite (xs_fin g _ _ EG). cbn [xadd length]. rewrite seq_length.
      assert (L2' : INR (S (k2 + 1 - 3)) = INR k2 - 1) by (rewrite S_INR, L3; ring).
      rewrite L2', xdiv_fin by lra. f_equal. unfold mackay_estimate.
      set (h := fun k => / rmean _). unfold rmean. rewrite map_length, seq_length, L3. field. lra.
  Qed.
End Small.

(** ** C97 *)
Theorem C97_first_neighbour_gives_infinity :
  forall sort order (X : arr2 xr) n m x T k2 e trafo mem,
    sort_ok sort -> Permutation order (seq 0 n) -> fin2 X n m x -> trafo_ok trafo -> known_estimator e ->
    nearest_dists n m (transformed trafo n x) T -> (1 <= k2)%nat -> (k2 < n)%nat ->
    (forall i, (i < n)%nat -> 0 < kth_dist (T i) 1 /\ ((2 <= k2)%nat -> kth_dist (T i) 1 < kth_dist (T i) 2)) ->
    intrinsic_dimension xsum xln sort order X 1 (Z.of_nat k2) e "vector" trafo mem = Ok XPInf.
Proof.
  intros sort order X n m x T k2 e trafo mem SO P FX Ht He HT Hk Hn HD.
  change 1%Z with (Z.of_nat 1). rewrite (small_core sort order X n m x T e trafo mem SO P FX Ht He HT (fun i Hi => proj1 (HD i Hi)) 1 k2) by lia.
  f_equal. eapply k1_one; eauto; intros i Hi; apply HD; exact Hi.
Qed.
Theorem C97_second_neighbour_counts_as_zero :
  forall sort order (X : arr2 xr) n m x T k2 e trafo mem,
    sort_ok sort -> Permutation order (seq 0 n) -> fin2 X n m x -> trafo_ok trafo -> known_estimator e ->
    nearest_dists n m (transformed trafo n x) T -> (3 <= k2)%nat -> (k2 < n)%nat ->
    (forall i, (i < n)%nat -> 0 < kth_dist (T i) 1 < kth_dist (T i) 2) ->
    exists d, 0 < d /\
      intrinsic_dimension xsum xln sort order X 3 (Z.of_nat k2) e "vector" trafo mem = Ok (XFin d) /\
      intrinsic_dimension xsum xln sort order X 2 (Z.of_nat k2) e "vector" trafo mem
      = Ok (XFin ((INR k2 - 2) / (INR k2 - 1) * d)).
Proof.
  intros sort order X n m x T k2 e trafo mem SO P FX Ht He HT Hk Hn HD.
  assert (LE : forall i, (i < n)%nat -> length (T i) = (n - 1)%nat) by (intros i Hi; exact (nearest_len n m _ T i Hi HT)).
  exists (estimate e T n 3 k2).
  assert (D3 : forall i, (i < n)%nat -> 0 < kth_dist (T i) 1 < kth_dist (T i) 3).
  { intros i Hi. destruct (HD i Hi) as (A & B). split; [exact A|]. apply Rlt_le_trans with (kth_dist (T i) 2); [exact B|].
    apply ssorted_nth; [apply (HT i Hi)|lia|rewrite LE by assumption; lia]. }
  destruct (C95_maximum_likelihood_estimate sort order X n m x T 3 k2 e trafo mem SO P FX Ht He ltac:(lia) Hn HT D3) as (A & B).
  split; [exact B|]. split; [exact A|].
  change 2%Z with (Z.of_nat 2). rewrite (small_core sort order X n m x T e trafo mem SO P FX Ht He HT (fun i Hi => proj1 (HD i Hi)) 2 k2) by lia.
  f_equal. eapply k1_two; eauto; intros i Hi; apply HD; exact Hi.
Qed.
Theorem C97_ties :
  forall sort order (X : arr2 xr) n m x T k1 k2 trafo mem i0,
    sort_ok sort -> Permutation order (seq 0 n) -> fin2 X n m x -> trafo_ok trafo ->
    nearest_dists n m (transformed trafo n x) T -> (1 <= k1 <= k2)%nat -> (k2 < n)%nat ->
    (forall i, (i < n)%nat -> 0 < kth_dist (T i) 1) -> (i0 < n)%nat ->
    (** the two nearest neighbours of i0 are equally near *)
    ((k1 <= 2 <= k2)%nat -> kth_dist (T i0) 1 = kth_dist (T i0) 2 -> forall e, known_estimator e ->
       intrinsic_dimension xsum xln sort order X (Z.of_nat k1) (Z.of_nat k2) e "vector" trafo mem = Ok XNaN) /\
    (** the k1 nearest neighbours of i0 are equally near *)
    ((3 <= k1)%nat -> kth_dist (T i0) 1 = kth_dist (T i0) k1 ->
       intrinsic_dimension xsum xln sort order X (Z.of_nat k1) (Z.of_nat k2) "levina" "vector" trafo mem = Ok XNInf).
Proof.
  intros sort order X n m x T k1 k2 trafo mem i0 SO P FX Ht HT Hk Hn H0 Hi0.
  assert (LE : forall i, (i < n)%nat -> length (T i) = (n - 1)%nat) by (intros i Hi; exact (nearest_len n m _ T i Hi HT)).
  assert (TIE : forall k, (1 <= k <= k2)%nat -> kth_dist (T i0) 1 = kth_dist (T i0) k -> log_ratios (T i0) k = 0).
  { intros k Hkk E. unfold log_ratios. rewrite (rsum_ext _ (fun _ => 0)); [apply rsum_0|].
    intros j Hj. apply in_seq in Hj. destruct (HT i0 Hi0) as (S & _).
    assert (A : kth_dist (T i0) 1 <= kth_dist (T i0) j) by (apply ssorted_nth; auto; rewrite ?LE by assumption; lia).
    assert (B : kth_dist (T i0) j <= kth_dist (T i0) k) by (apply ssorted_nth; auto; rewrite ?LE by assumption; lia).
    replace (kth_dist (T i0) j) with (kth_dist (T i0) k) by lra. pose proof (H0 i0 Hi0).
    unfold Rdiv. rewrite Rinv_r by lra. apply ln_1. }
  assert (PK : 0 < INR (length (seq k1 (k2 + 1 - k1)))) by (rewrite seq_length; apply lt_0_INR; lia).
  assert (PN : 0 < INR n) by (apply lt_0_INR; lia).
  split.
  - intros H2 E e He. rewrite (small_core sort order X n m x T e trafo mem SO P FX Ht He HT H0 k1 k2) by lia. f_equal.
    assert (Q : xdhat (log_ratios (T i0) 2) 2 = XNaN) by (rewrite TIE by (auto; lia); apply xdhat_zero).
    destruct He as [->| ->]; unfold xest; cbv zeta; cbn [String.eqb Ascii.eqb Bool.eqb].
    + rewrite xsum_nan; [reflexivity|]. apply in_flat_map. exists i0. split; [apply in_seq; lia|].
      apply in_map_iff. exists 2%nat. split; [exact Q|apply in_seq; lia].
    + rewrite xsum_nan; [reflexivity|]. apply in_map_iff. exists 2%nat. split; [|apply in_seq; lia].
      rewrite xsum_nan; [reflexivity|]. apply in_map_iff. exists i0. split; [now rewrite Q|apply in_seq; lia].
  - intros K3 E. rewrite (small_core sort order X n m x T "levina" trafo mem SO P FX Ht (or_introl eq_refl) HT H0 k1 k2) by lia. f_equal.
    unfold xest; cbv zeta; cbn [String.eqb Ascii.eqb Bool.eqb].
    rewrite xsum_ninf; [apply xinf_div_pos; rewrite mult_INR; now apply Rmult_lt_0_compat| |].
    + apply in_flat_map. exists i0. split; [apply in_seq; lia|]. apply in_map_iff. exists k1. split; [|apply in_seq; lia].
      rewrite TIE by (auto; lia). rewrite xdhat_zero. destruct (Nat.eqb_spec k1 2); [lia|]. destruct (Nat.ltb_spec k1 2); [lia|reflexivity].
    + intros v Hv. apply in_flat_map in Hv as (i & Hi & Hv). apply in_map_iff in Hv as (k & <- & Hkk). apply in_seq in Hi, Hkk.
      destruct (Req_dec (log_ratios (T i) k) 0) as [->|NZ].
      * left. rewrite xdhat_zero. destruct (Nat.eqb_spec k 2); [lia|]. destruct (Nat.ltb_spec k 2); [lia|reflexivity].
      * right. eexists. now apply xdhat_fin.
Qed.

(** ** points on a line *)
Definition on_line (p : list R) (i f : nat) : R := nth i p 0.
Definition line_X (p : list R) : arr2 xr := rmat (length p) 1 (on_line p).
Lemma line_fin p : fin2 (line_X p) (length p) 1 (on_line p).
Proof. split; [reflexivity|]. split; [reflexivity|]. reflexivity. Qed.
Lemma edist_line p i j : edist 1 (on_line p) i j = Rabs (nth i p 0 - nth j p 0).
Proof.
  unfold edist, sqdistR, on_line. cbn. rewrite Rplus_0_r. apply sqrt_Rsqr_abs.
Qed.
Ltac abs_all := repeat match goal with
  | |- context [Rabs ?a] => first [rewrite (Rabs_pos_eq a) by lra | rewrite (Rabs_left1 a) by lra] end.
Ltac sorted_now := repeat first [apply SSorted_nil | apply SSorted_cons | apply Forall_nil | apply Forall_cons; [lra|]].
Ltac line_case l := split; [sorted_now|
  cbn [seq filter Nat.eqb negb map]; rewrite !edist_line; cbn [nth]; abs_all;
  match goal with |- Permutation _ ?r => replace r with l by (repeat (f_equal; try lra)) end].

(** ** C98: duplicates are kept, at distance sqrt (1e-7) *)
Theorem C98_duplicates_give_negative_dimension :
  forall sort order mem delta, sort_ok sort -> Permutation order (seq 0 4) -> 0 < delta <= / 100000 ->
    exists v, v < 0 /\
      intrinsic_dimension xsum xln sort order (line_X [0; 0; delta; 3 * delta]) 3 3 "mackay" "vector" None mem = Ok (XFin v).
Proof.
  intros sort order mem d SO P Hd. set (p := [0; 0; d; 3 * d]).
  set (T := fun i : nat => match i with 0%nat | 1%nat => [0; d; 3 * d] | 2%nat => [d; d; 2 * d] | _ => [2 * d; 3 * d; 3 * d] end).
  assert (HT : nearest_dists 4 1 (transformed None 4 (on_line p)) T).
  { change (nearest_dists 4 1 (on_line p) T). intros [|[|[|[|i]]]] Hi; [| | | |lia]; unfold T, p.
    - line_case [0; d; 3 * d]. reflexivity.
    - line_case [0; d; 3 * d]. reflexivity.
    - line_case [d; d; 2 * d]. reflexivity.
    - line_case [3 * d; 3 * d; 2 * d]. exact (Permutation_rev [2 * d; 3 * d; 3 * d]). }
  set (s := sqrt (/ 10000000)).
  assert (Ps : 0 < s) by (apply sqrt_lt_R0; lra).
  assert (Ss : s * s = / 10000000) by (apply sqrt_sqrt; lra).
  assert (E0 : eff 0 = s) by (unfold eff; destruct (Req_EM_T 0 0); [reflexivity|lra]).
  assert (EP : forall r, 0 < r -> eff r = r) by (intros r Hr; unfold eff; destruct (Req_EM_T r 0); lra).
  assert (Q0 : log_ratios [s; d; 3 * d] 3 = ln (9 * d / s)).
  { unfold log_ratios, kth_dist. cbn. rewrite Rplus_0_r.
    rewrite <- ln_mult by (apply Rmult_lt_0_compat; [lra|apply Rinv_0_lt_compat; lra]).
    f_equal. field. lra. }
  assert (Q2 : log_ratios [d; d; 2 * d] 3 = ln 4).
  { unfold log_ratios, kth_dist. cbn. rewrite Rplus_0_r.
    rewrite <- ln_mult by (apply Rmult_lt_0_compat; [lra|apply Rinv_0_lt_compat; lra]).
    f_equal. field. lra. }
  assert (Q3 : log_ratios [2 * d; 3 * d; 3 * d] 3 = ln (3 / 2)).
  { unfold log_ratios, kth_dist. cbn. rewrite Rplus_0_r.
    rewrite <- ln_mult by (apply Rmult_lt_0_compat; [lra|apply Rinv_0_lt_compat; lra]).
    f_equal. field. lra. }
  assert (M0 : map eff [0; d; 3 * d] = [s; d; 3 * d]) by (cbn; rewrite E0, !EP by lra; reflexivity).
  assert (M2 : map eff [d; d; 2 * d] = [d; d; 2 * d]) by (cbn; rewrite !EP by lra; reflexivity).
  assert (M3 : map eff [2 * d; 3 * d; 3 * d] = [2 * d; 3 * d; 3 * d]) by (cbn; rewrite !EP by lra; reflexivity).
  assert (D9 : 9 * d < s) by nra.
  assert (P9 : 0 < 9 * d / s) by (apply Rmult_lt_0_compat; [lra|now apply Rinv_0_lt_compat]).
  assert (N9 : 9 * d / s < 1).
  { apply Rmult_lt_reg_r with s; [assumption|]. unfold Rdiv. rewrite Rmult_assoc, Rinv_l by lra. lra. }
  assert (LN9 : ln (9 * d / s) < 0) by (rewrite <- ln_1; apply ln_increasing; assumption).
  assert (LN4 : 0 < ln 4) by (rewrite <- ln_1; apply ln_increasing; lra).
  assert (LN32 : 0 < ln (3 / 2)) by (rewrite <- ln_1; apply ln_increasing; lra).
  assert (SUM : ln (9 * d / s) + (ln (9 * d / s) + (ln 4 + ln (3 / 2))) < 0).
  { assert (E6 : ln (9 * d / s) + (ln (9 * d / s) + (ln 4 + ln (3 / 2))) = ln (9 * d / s * (9 * d / s * (4 * (3 / 2))))).
    { rewrite (ln_mult (9 * d / s)) by (assumption || (apply Rmult_lt_0_compat; [assumption|lra])).
      rewrite (ln_mult (9 * d / s)) by (assumption || lra). rewrite (ln_mult 4) by lra. ring. }
    rewrite E6.
    rewrite <- ln_1. apply ln_increasing; [repeat (apply Rmult_lt_0_compat; try assumption); lra|].
    replace (9 * d / s * (9 * d / s * (4 * (3 / 2)))) with (486 * (d * d) * / (s * s)) by (field; lra).
    rewrite Ss, Rinv_inv. nra. }
  assert (MEAN : rmean (map (fun i => / local_dim (map eff (T i)) 3) (seq 0 4))
                 = (ln (9 * d / s) + (ln (9 * d / s) + (ln 4 + ln (3 / 2)))) / 4).
  { unfold rmean. cbn [seq map length]. unfold T. rewrite M0, M2, M3. unfold local_dim. rewrite Q0, Q2, Q3.
    change (INR 3) with (1 + 1 + 1). change (INR 4) with (1 + 1 + 1 + 1).
    assert (I1 : forall q, q <> 0 -> / ((1 + 1 + 1 - 2) / q) = q) by (intros q Hq; field; lra).
    rewrite !I1 by lra. cbn. lra. }
  assert (L3 : forall i k, (i < 4)%nat -> (3 <= k <= 3)%nat -> log_ratios (map eff (T i)) k <> 0).
  { intros [|[|[|[|i]]]] k Hi Hk; [| | | |lia]; replace k with 3%nat by lia; unfold T; rewrite ?M0, ?M2, ?M3, ?Q0, ?Q2, ?Q3; lra. }
  exists (estimate "mackay" (fun i => map eff (T i)) 4 3 3). split.
  - unfold estimate. cbn [String.eqb Ascii.eqb Bool.eqb]. unfold mackay_estimate. cbn [seq map Nat.add Nat.sub]. cbn [seq map] in MEAN.
    unfold rmean at 1. cbn [length map]. 
    match goal with |- context [rsum [/ ?q]] => replace q with ((ln (9 * d / s) + (ln (9 * d / s) + (ln 4 + ln (3 / 2)))) / 4) by (symmetry; exact MEAN) end.
    change (INR 1) with 1. cbn. unfold Rdiv at 1. rewrite Rinv_1, Rmult_1_r, Rplus_0_r. apply Rinv_lt_0_compat. lra.
  - change 3%Z with (Z.of_nat 3).
    apply (C95_zero_distances sort order (line_X p) 4 1 (on_line p) T 3 3 "mackay" None mem SO P (line_fin p)); auto; try lia.
    + now left.
    + now right.
    + intros k Hk. replace k with 3%nat by lia. rewrite MEAN. lra.
Qed.

(** ** The hypotheses can be met *)
Definition four : list R := [0; 1; 3; 7].
Definition four_T (i : nat) : list R :=
  match i with 0%nat => [1; 3; 7] | 1%nat => [1; 2; 6] | 2%nat => [2; 3; 4] | _ => [4; 6; 7] end.
Lemma four_nearest : nearest_dists 4 1 (transformed None 4 (on_line four)) four_T.
Proof.
  change (nearest_dists 4 1 (on_line four) four_T). intros [|[|[|[|i]]]] Hi; [| | | |lia]; unfold four_T, four.
  - line_case [1; 3; 7]. reflexivity.
  - line_case [1; 2; 6]. reflexivity.
  - line_case [3; 2; 4]. apply perm_swap.
  - line_case [7; 6; 4]. exact (Permutation_rev [4; 6; 7]).
Qed.
Lemma four_apart i : (i < 4)%nat -> 0 < kth_dist (four_T i) 1 < kth_dist (four_T i) 2 /\ kth_dist (four_T i) 1 < kth_dist (four_T i) 3.
Proof. destruct i as [|[|[|[|i]]]]; intros Hi; unfold kth_dist; cbn; try lia; lra. Qed.
Example C95_case :
  intrinsic_dimension xsum xln ref_sort [0; 1; 2; 3]%nat (line_X four) 3 3 "mackay" "vector" None 5000
  = Ok (XFin (estimate "mackay" four_T 4 3 3)) /\ 0 < estimate "mackay" four_T 4 3 3.
Proof.
  apply (C95_maximum_likelihood_estimate ref_sort [0; 1; 2; 3]%nat (line_X four) 4 1 (on_line four) four_T 3 3 "mackay" None 5000
           (ref_sort_ok xr_cmp) (Permutation_refl _) (line_fin four) (or_introl eq_refl) (or_intror eq_refl)); try lia; [exact four_nearest|].
  intros i Hi. destruct (four_apart i Hi) as ((A & B) & C). now split.
Qed.
(** the other way round, and scaled *)
Example C96_case :
  intrinsic_dimension xsum xln ref_sort [0; 1; 2; 3]%nat (line_X four) 3 3 "levina" "vector" (Some "std"%string) 5000
  = intrinsic_dimension xsum xln ref_sort [3; 2; 1; 0]%nat (line_X [7; 3; 1; 0]) 3 3 "levina" "vector" (Some "std"%string) 1 /\
  intrinsic_dimension xsum xln ref_sort [0; 1; 2; 3]%nat (line_X four) 3 3 "levina" "vector" None 5000
  = intrinsic_dimension xsum xln ref_sort [0; 1; 2; 3]%nat (line_X [0; 2; 6; 14]) 3 3 "levina" "vector" None 5000.
Proof.
  assert (PR : Permutation [3; 2; 1; 0]%nat (seq 0 4)) by (apply Permutation_sym; exact (Permutation_rev (seq 0 4))).
  split.
  - apply (C96_order_and_memory ref_sort ref_sort [0; 1; 2; 3]%nat [3; 2; 1; 0]%nat (line_X four) (line_X [7; 3; 1; 0]) 4 1 (on_line four) [3; 2; 1; 0]%nat
             3 3 "levina" "vector" (Some "std"%string) 5000 1 (ref_sort_ok xr_cmp) (ref_sort_ok xr_cmp) (Permutation_refl _) PR (line_fin four) PR).
    split; [reflexivity|]. split; [reflexivity|]. intros [|[|[|[|i]]]] f Hi Hf; [reflexivity..|lia].
  - apply (C96_scaling ref_sort [0; 1; 2; 3]%nat (line_X four) (line_X [0; 2; 6; 14]) 4 1 (on_line four) 2
             3 3 "levina" "vector" 5000 (ref_sort_ok xr_cmp) (Permutation_refl _) (line_fin four)); [|lra|].
    + split; [reflexivity|]. split; [reflexivity|]. intros [|[|[|[|i]]]] f Hi Hf; [..|lia]; cbn; f_equal; unfold on_line; cbn; ring.
    + intros i j Hij Hj. rewrite edist_line. apply Rabs_pos_lt.
      destruct j as [|[|[|[|j]]]]; try lia; destruct i as [|[|[|i]]]; try lia; cbn; lra.
Qed.
(** a quarter turn of points in the plane is an isometry *)
Example C96_isometry_case : forall (x : nat -> nat -> R),
  intrinsic_dimension xsum xln ref_sort (seq 0 4) (rmat 4 2 x) 3 3 "mackay" "vector" None 5000
  = intrinsic_dimension xsum xln ref_sort (seq 0 4) (rmat 4 2 (fun i f => match f with 0%nat => - x i 1%nat | _ => x i 0%nat end)) 3 3 "mackay" "vector" None 5000.
Proof.
  intros x. eapply (C96_isometric_data ref_sort (seq 0 4) (rmat 4 2 x) _ 4 2 2 x); [apply (ref_sort_ok xr_cmp)|reflexivity|repeat split; reflexivity|repeat split; reflexivity|].
  intros i j _ _. unfold edist, sqdistR. cbn. f_equal. ring.
Qed.
Example C97_case :
  intrinsic_dimension xsum xln ref_sort [0; 1; 2; 3]%nat (line_X four) 1 3 "mackay" "vector" None 5000 = Ok XPInf /\
  (exists d, 0 < d /\
     intrinsic_dimension xsum xln ref_sort [0; 1; 2; 3]%nat (line_X four) 3 3 "mackay" "vector" None 5000 = Ok (XFin d) /\
     intrinsic_dimension xsum xln ref_sort [0; 1; 2; 3]%nat (line_X four) 2 3 "mackay" "vector" None 5000 = Ok (XFin (d / 2))).
Proof.
  split.
  - apply (C97_first_neighbour_gives_infinity ref_sort [0; 1; 2; 3]%nat (line_X four) 4 1 (on_line four) four_T 3 "mackay" None 5000
           (ref_sort_ok xr_cmp) (Permutation_refl _) (line_fin four) (or_introl eq_refl) (or_intror eq_refl) four_nearest); try lia.
    intros i Hi. destruct (four_apart i Hi) as ((A & B) & C). split; auto.
  - destruct (C97_second_neighbour_counts_as_zero ref_sort [0; 1; 2; 3]%nat (line_X four) 4 1 (on_line four) four_T 3 "mackay" None 5000
           (ref_sort_ok xr_cmp) (Permutation_refl _) (line_fin four) (or_introl eq_refl) (or_intror eq_refl) four_nearest) as (d & A & B & C); try lia.
    + intros i Hi. destruct (four_apart i Hi) as ((A & B) & C). now split.
    + exists d. split; [exact A|]. split; [exact B|]. etransitivity; [exact C|]. do 2 f_equal. change (INR 3) with (1 + 1 + 1). field.
Qed.
(** three points in a row; a point with three neighbours at distance one *)
Definition cross (i f : nat) : R :=
  match i, f with 1%nat, 0%nat => 1 | 2%nat, 0%nat => -1 | 3%nat, 1%nat => 1 | _, _ => 0 end.
Definition cross_T (i : nat) : list R :=
  match i with 0%nat => [1; 1; 1] | 1%nat | 2%nat => [1; sqrt 2; 2] | _ => [1; sqrt 2; sqrt 2] end.
Example C97_ties_case :
  intrinsic_dimension xsum xln ref_sort [0; 1; 2]%nat (line_X [0; 1; 2]) 2 2 "mackay" "vector" None 5000 = Ok XNaN /\
  intrinsic_dimension xsum xln ref_sort [0; 1; 2; 3]%nat (rmat 4 2 cross) 3 3 "levina" "vector" None 5000 = Ok XNInf.
Proof.
  split.
  - set (T := fun i : nat => match i with 1%nat => [1; 1] | _ => [1; 2] end).
    assert (HT : nearest_dists 3 1 (transformed None 3 (on_line [0; 1; 2])) T).
    { change (nearest_dists 3 1 (on_line [0; 1; 2]) T). intros [|[|[|i]]] Hi; [| | |lia]; unfold T.
      - line_case [1; 2]. reflexivity.
      - line_case [1; 1]. reflexivity.
      - line_case [2; 1]. apply perm_swap. }
    apply (C97_ties ref_sort [0; 1; 2]%nat (line_X [0; 1; 2]) 3 1 (on_line [0; 1; 2]) T 2 2 None 5000 1
             (ref_sort_ok xr_cmp) (Permutation_refl _) (line_fin [0; 1; 2]) (or_introl eq_refl) HT); try lia.
    + intros i _. unfold kth_dist, T. destruct i as [|[|i]]; cbn; lra.
    + reflexivity.
    + now right.
  - assert (E1 : sqrt 1 = 1) by apply sqrt_1.
    assert (E4 : sqrt 4 = 2) by (replace 4 with (2 * 2) by ring; apply sqrt_square; lra).
    assert (S2 : 1 <= sqrt 2 <= 2) by (split; [rewrite <- E1|rewrite <- E4]; apply sqrt_le_1_alt; lra).
    assert (HT : nearest_dists 4 2 (transformed None 4 cross) cross_T).
    { change (nearest_dists 4 2 cross cross_T). intros [|[|[|[|i]]]] Hi; [| | | |lia]; unfold cross_T; (split; [sorted_now|]);
      cbn [seq filter Nat.eqb negb map]; unfold edist, sqdistR; cbn [seq map cross].
      - match goal with |- Permutation _ [sqrt ?a; sqrt ?b; sqrt ?c] => replace a with 1 by (cbn; ring); replace b with 1 by (cbn; ring); replace c with 1 by (cbn; ring) end.
        rewrite E1. reflexivity.
      - match goal with |- Permutation _ [sqrt ?a; sqrt ?b; sqrt ?c] => replace a with 1 by (cbn; ring); replace b with 4 by (cbn; ring); replace c with 2 by (cbn; ring) end.
        rewrite E1, E4. constructor. apply perm_swap.
      - match goal with |- Permutation _ [sqrt ?a; sqrt ?b; sqrt ?c] => replace a with 1 by (cbn; ring); replace b with 4 by (cbn; ring); replace c with 2 by (cbn; ring) end.
        rewrite E1, E4. constructor. apply perm_swap.
      - match goal with |- Permutation _ [sqrt ?a; sqrt ?b; sqrt ?c] => replace a with 1 by (cbn; ring); replace b with 2 by (cbn; ring); replace c with 2 by (cbn; ring) end.
        rewrite E1. reflexivity. }
    apply (C97_ties ref_sort [0; 1; 2; 3]%nat (rmat 4 2 cross) 4 2 cross cross_T 3 3 None 5000 0
             (ref_sort_ok xr_cmp) (Permutation_refl _)); try lia; auto.
    + repeat split; reflexivity.
    + now left.
    + intros i _. unfold kth_dist, cross_T. destruct i as [|[|[|i]]]; cbn; lra.
Qed.

Print Assumptions C95_zero_distances.
Print Assumptions C95_maximum_likelihood_estimate.
Print Assumptions C96_order_and_memory.
Print Assumptions C96_isometric_data.
Print Assumptions C96_translation.
Print Assumptions C96_scaling.
Print Assumptions C97_first_neighbour_gives_infinity.
Print Assumptions C97_second_neighbour_counts_as_zero.
Print Assumptions C97_ties.
Print Assumptions C98_duplicates_give_negative_dimension.
Print Assumptions C99_accepted_calls.
