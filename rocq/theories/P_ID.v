(** Proofs about the intrinsic dimension estimate. *)
From Coq Require Import String.
From Coq Require Import ZArith Reals Lra Lia Psatz List Arith Bool Permutation Sorting.Sorted.
From Verif Require Import Py Num NumT Arr Sort S_Neighbors S_Approx S_Centering S_ID M_IO M_GK M_LS M_MPDist M_ID.
From Verif Require Import P_GK P_GK3 P_KNN P_Vec P_ApproxMPG P_MPDist3.
Import ListNotations.
Local Open Scope R_scope.

(** ** sums of extended reals do not depend on the order *)
Lemma xadd_comm a b : xadd a b = xadd b a.
Proof. destruct a, b; cbn; auto. f_equal. ring. Qed.
Lemma xadd_assoc a b c : xadd a (xadd b c) = xadd (xadd a b) c.
Proof. destruct a, b, c; cbn; auto. f_equal. ring. Qed.
Lemma xsum_perm l l' : Permutation l l' -> xsum l = xsum l'.
Proof.
  unfold xsum. induction 1; cbn; auto; [now f_equal| |congruence].
  rewrite !xadd_assoc. f_equal. apply xadd_comm.
Qed.

(** ** sorting finite numbers *)
Lemma ssorted_perm_eq l : forall l', StronglySorted Rle l -> StronglySorted Rle l' -> Permutation l l' -> l = l'.
Proof.
  induction l as [|a l IH]; intros l' S S' P.
  - now apply Permutation_nil in P.
  - destruct l' as [|b l']; [apply Permutation_sym, Permutation_nil in P; discriminate|].
    assert (E : a = b).
    { inversion S as [|? ? S1 F1]; inversion S' as [|? ? S1' F1']; subst. rewrite Forall_forall in F1, F1'.
      assert (Ia : In a (b :: l')) by (eapply Permutation_in; [exact P|now left]).
      assert (Ib : In b (a :: l)) by (eapply Permutation_in; [apply Permutation_sym; exact P|now left]).
      destruct Ia as [->|Ia]; [reflexivity|]. destruct Ib as [->|Ib]; [reflexivity|].
      apply Rle_antisym; auto. }
    subst b. f_equal. apply IH; [now inversion S|now inversion S'|now apply Permutation_cons_inv in P].
Qed.
Lemma ssorted_map (f : R -> R) l : (forall a b, In a l -> In b l -> a <= b -> f a <= f b) ->
  StronglySorted Rle l -> StronglySorted Rle (map f l).
Proof.
  intros Hf S. induction S as [|a l S IH F]; cbn; constructor.
  - apply IH. intros; apply Hf; try (now right); auto.
  - rewrite Forall_forall in *. intros y Hy. apply in_map_iff in Hy as (z & <- & Hz).
    apply Hf; [now left|now right|now apply F].
Qed.
Lemma sort_fin sort (l r : list R) : sort_ok sort -> StronglySorted Rle r -> Permutation r l ->
  sort (map XFin l) = map XFin r.
Proof.
  intros SO S P. destruct (sort_sorted sort (map XFin l) SO) as (Ss & Ps).
  apply Permutation_map_inv in Ps as (l' & E & P').
  rewrite E. f_equal. apply ssorted_perm_eq; [|assumption|now transitivity l; [apply Permutation_sym|apply Permutation_sym]].
  rewrite E in Ss. clear -Ss. induction l' as [|a l' IH]; [constructor|].
  cbn in Ss. inversion Ss as [|? ? S1 F1]; subst. constructor; [now apply IH|].
  rewrite Forall_forall in *. intros b Hb. specialize (F1 (XFin b) (in_map XFin _ _ Hb)).
  unfold Sle, sle in F1. cbn in F1. destruct (Rle_dec a b); [assumption|discriminate].
Qed.

(** a sorted list of reals exists *)
Definition xval (v : xr) : R := match v with XFin r => r | _ => 0 end.
Definition rsort (l : list R) : list R := map xval (ref_sort (map XFin l)).
Lemma rsort_ok l : StronglySorted Rle (rsort l) /\ Permutation (rsort l) l.
Proof.
  destruct (sort_sorted ref_sort (map XFin l) (ref_sort_ok xr_cmp)) as (Ss & Ps).
  unfold rsort. apply Permutation_map_inv in Ps as (l' & E & P'). rewrite E in *.
  rewrite map_map. cbn. rewrite map_id. split; [|now apply Permutation_sym].
  clear -Ss. induction l' as [|a l' IH]; [constructor|].
  cbn in Ss. inversion Ss as [|? ? S1 F1]; subst. constructor; [now apply IH|].
  rewrite Forall_forall in *. intros b Hb. specialize (F1 (XFin b) (in_map XFin _ _ Hb)).
  unfold Sle, sle in F1. cbn in F1. destruct (Rle_dec a b); [assumption|discriminate].
Qed.
Definition others (n i : nat) : list nat := filter (fun j => negb (j =? i)%nat) (seq 0 n).
Definition Tof (n m : nat) (x : nat -> nat -> R) (i : nat) : list R := rsort (map (edist m x i) (others n i)).
Lemma Tof_ok n m x : nearest_dists n m x (Tof n m x).
Proof. intros i Hi. apply rsort_ok. Qed.
Lemma nearest_unique n m x T T' i : (i < n)%nat -> nearest_dists n m x T -> nearest_dists n m x T' -> T i = T' i.
Proof.
  intros Hi H H'. destruct (H i Hi) as (A & B), (H' i Hi) as (A' & B').
  apply ssorted_perm_eq; auto. etransitivity; [exact B|now apply Permutation_sym].
Qed.
Lemma others_perm n i : (i < n)%nat -> Permutation (seq 0 n) (i :: others n i).
Proof.
  intros Hi. apply NoDup_Permutation; [apply seq_NoDup| |].
  - constructor; [unfold others; rewrite filter_In, Nat.eqb_refl; cbn; intuition congruence|apply NoDup_filter, seq_NoDup].
  - intros j. unfold others. cbn. rewrite filter_In. destruct (Nat.eqb_spec j i) as [->|Hne]; cbn.
    + split; [now left|intros _; apply in_seq; lia].
    + split; [intros H; now right|intros [->|(H & _)]; [congruence|assumption]].
Qed.
Lemma nearest_len n m x T i : (i < n)%nat -> nearest_dists n m x T -> length (T i) = (n - 1)%nat.
Proof.
  intros Hi H. destruct (H i Hi) as (_ & B). rewrite (Permutation_length B), map_length.
  pose proof (Permutation_length (others_perm n i Hi)) as L. rewrite seq_length in L. cbn in L. unfold others in L. lia.
Qed.

(** ** distances *)
Lemma ln_sqrt r : 0 < r -> ln (sqrt r) = ln r / 2.
Proof.
  intros H. assert (P := sqrt_lt_R0 r H). rewrite <- (sqrt_sqrt r) at 2 by lra. rewrite ln_mult by assumption. lra.
Qed.
Lemma sqdistR_expand m u v : sqdistR m u v = dotR m u u + dotR m v v - 2 * dotR m u v.
Proof. rewrite sqdistR_dot, dotR_minus_l, !dotR_minus_r, (dotR_comm m v u). ring. Qed.
Lemma sqdistR_nonneg m u v : 0 <= sqdistR m u v.
Proof. rewrite sqdistR_dot. apply dotR_pos. Qed.
Lemma sqdistR_self m u : sqdistR m u u = 0.
Proof. rewrite sqdistR_expand. ring. Qed.
Lemma sqdistR_comm m u v : sqdistR m u v = sqdistR m v u.
Proof. rewrite !sqdistR_expand, (dotR_comm m v u). ring. Qed.
Lemma edist_nonneg m x i j : 0 <= edist m x i j.
Proof. apply sqrt_pos. Qed.
Lemma edist_sq m x i j : edist m x i j * edist m x i j = sqdistR m (x i) (x j).
Proof. apply sqrt_sqrt, sqdistR_nonneg. Qed.


Section Rows.
  Variables (X : arr2 xr) (n m : nat) (x : nat -> nat -> R).
  Hypothesis FX : fin2 X n m x.
  Lemma id_dot_fin i j : (i < n)%nat -> (j < n)%nat -> id_dot xsum X i j = XFin (dotR m (x i) (x j)).
  Proof.
    intros Hi Hj. destruct FX as (_ & C & A). unfold id_dot. rewrite C. apply xs_fin. intros f Hf. apply in_seq in Hf.
    rewrite !A by lia. reflexivity.
  Qed.
  Lemma id_dist_fin w i j : (i < n)%nat -> (j < n)%nat -> id_dist xsum w X i j = XFin (sqdistR m (x i) (x j)).
  Proof.
    intros Hi Hj. unfold id_dist. rewrite !id_dot_fin by assumption.
    replace (if w then XFin (dotR m (x i) (x j)) else XFin (dotR m (x j) (x i))) with (XFin (dotR m (x i) (x j)))
      by (destruct w; [reflexivity|now rewrite dotR_comm]).
    cbn. rewrite sqdistR_expand. f_equal.
  Qed.

  Lemma id_knn_fin sort w T i t : sort_ok sort -> nearest_dists n m x T -> (i < n)%nat -> (t < n - 1)%nat ->
    id_knn xsum xln sort w X i t = XFin (ln (eff (nth t (T i) 0))).
  Proof.
    intros SO HT Hi Ht. unfold id_knn. assert (R := proj1 FX). rewrite R.
    rewrite (map_ext_in _ (fun j => XFin (sqdistR m (x i) (x j)))) by (intros j Hj; apply in_seq in Hj; apply id_dist_fin; lia).
    rewrite <- (map_map (fun j => sqdistR m (x i) (x j)) XFin).
    destruct (HT i Hi) as (S & P).
    assert (NN : forall r, In r (T i) -> 0 <= r).
    { intros r Hr. apply (Permutation_in _ P) in Hr. apply in_map_iff in Hr as (j & <- & _). apply edist_nonneg. }
    rewrite (sort_fin sort _ (0 :: map (fun r => r * r) (T i)) SO).
    - rewrite Nat.add_1_r. cbn [map nth]. rewrite map_map.
      assert (L : (t < length (T i))%nat) by (rewrite (nearest_len n m x T i Hi HT); lia).
      rewrite (nth_indep _ _ (XFin (0 * 0))) by now rewrite map_length.
      rewrite (map_nth (fun r => XFin (r * r))). assert (I := nth_In (T i) 0 L). apply NN in I.
      set (r := nth t (T i) 0) in *. unfold id_valid, eff.
      assert (Hh : half = XFin (/ 2)).
      { unfold half. cbn. destruct (Req_EM_T 2 0); [lra|]. f_equal. lra. }
      rewrite Hh. cbn [nle Num_xr xle n0].
      assert (P7 : 0 < / 10000000) by lra.
      destruct (Req_EM_T r 0) as [E|E].
      + rewrite E, Rmult_0_l. change (@n0 xr Num_xr) with (XFin 0). cbn. destruct (Rle_dec 0 0); [|lra].
        unfold tiny. cbn. destruct (Req_EM_T 10000000 0); [lra|]. unfold xln.
        destruct (Rlt_dec (1 / 10000000) 0); [lra|]. destruct (Req_EM_T (1 / 10000000) 0); [lra|]. cbn. f_equal.
        rewrite ln_sqrt by lra. replace (1 / 10000000) with (/ 10000000) by lra. lra.
      + assert (Pr : 0 < r) by lra. assert (Prr : 0 < r * r) by nra.
        cbn. destruct (Rle_dec (r * r) 0); [lra|]. unfold xln.
        destruct (Rlt_dec (r * r) 0); [lra|]. destruct (Req_EM_T (r * r) 0); [lra|]. cbn. f_equal.
        rewrite ln_mult by assumption. lra.
    - constructor.
      + apply ssorted_map; [|assumption]. intros a b Ha Hb Hab. apply NN in Ha, Hb. nra.
      + apply Forall_forall. intros r Hr. apply in_map_iff in Hr as (z & <- & _). nra.
    - etransitivity; [|apply Permutation_sym, Permutation_map; exact (others_perm n i Hi)].
      cbn [map]. rewrite sqdistR_self. constructor.
      etransitivity; [apply Permutation_map; exact P|]. rewrite map_map.
      unfold others. rewrite (map_ext _ (fun j => sqdistR m (x i) (x j))); [reflexivity|]. intros j. apply edist_sq.
  Qed.
End Rows.

(** ** from neighbour distances to the estimate *)
Lemma cumsum_fin (L : nat -> xr) (l : nat -> R) t : (forall s, (s <= t)%nat -> L s = XFin (l s)) ->
  cumsum L t = XFin (rsum (map l (seq 0 (t + 1)))).
Proof.
  induction t as [|t IH]; intros H.
  - cbn. rewrite H by lia. f_equal. ring.
  - cbn [cumsum]. rewrite IH by (intros; apply H; lia). rewrite (H (S t)) by lia.
    replace (S t + 1)%nat with (S (t + 1)) by lia. rewrite (seq_S (t + 1)), map_app, rsum_app. cbn. f_equal.
    rewrite Nat.add_1_r. ring.
Qed.
Lemma ln_quot a b : 0 < a -> 0 < b -> ln (a / b) = ln a - ln b.
Proof. intros Ha Hb. unfold Rdiv. rewrite ln_mult, ln_Rinv by (auto; now apply Rinv_0_lt_compat). ring. Qed.
Definition xdhat (q : R) (k : nat) : xr := xdiv (XFin (2 - INR k)) (XFin (- q)).
Lemma eff_pos r : 0 <= r -> 0 < eff r.
Proof. intros H. unfold eff. destruct (Req_EM_T r 0); [apply sqrt_lt_R0; lra|lra]. Qed.
Lemma dhat_fin (L : nat -> xr) (T : list R) k : (1 <= k <= length T)%nat -> (forall r, In r T -> 0 <= r) ->
  (forall t, (t < k)%nat -> L t = XFin (ln (eff (nth t T 0)))) ->
  dhat L k = xdhat (log_ratios (map eff T) k) k.
Proof.
  intros Hk NN HL. unfold dhat, xdhat. rewrite (cumsum_fin L (fun t => ln (eff (nth t T 0)))) by (intros; apply HL; lia).
  rewrite HL by lia. rewrite nofnat_xr. cbn [nofZ Num_xr nmul nsub xmul xsub xadd xopp ndiv].
  rewrite minus_IZR, <- INR_IZR_INZ. f_equal. f_equal.
  replace (k - 1 + 1)%nat with k by lia.
  assert (EN : forall t, (t < k)%nat -> nth t (map eff T) 0 = eff (nth t T 0)).
  { intros t Ht. rewrite (nth_indep _ _ (eff 0)) by (rewrite map_length; lia). apply map_nth. }
  assert (EP : forall t, (t < k)%nat -> 0 < eff (nth t T 0)) by (intros t Ht; apply eff_pos, NN, nth_In; lia).
  unfold log_ratios, kth_dist.
  rewrite <- seq_shift, map_map.
  rewrite (rsum_ext (fun t => ln (nth (k - 1) (map eff T) 0 / nth (S t - 1) (map eff T) 0))
    (fun t => ln (eff (nth (k - 1) T 0)) - ln (eff (nth t T 0)))).
  - rewrite rsum_minus, rsum_const, seq_length.
    destruct k as [|k]; [lia|]. rewrite !seq_S, map_app, rsum_app. cbn [plus map rsum fold_right].
    replace (S k - 1)%nat with k by lia. rewrite S_INR.
    generalize (ln (eff (nth k T 0))) (rsum (map (fun t => ln (eff (nth t T 0))) (seq 0 k))). intros a b. cbn. ring.
  - intros t Ht. apply in_seq in Ht. rewrite Nat.sub_succ, Nat.sub_0_r, !EN by lia.
    apply ln_quot; apply EP; lia.
Qed.

Definition xest (e : string) (Q : nat -> nat -> R) (n k1 k2 : nat) : xr :=
  let ks := seq k1 (k2 + 1 - k1) in
  if String.eqb e "levina"
  then xdiv (xsum (flat_map (fun i => map (fun k => xdhat (Q i k) k) ks) (seq 0 n))) (XFin (INR (n * length ks)))
  else xdiv (xsum (map (fun k => xdiv (XFin 1) (xdiv (xsum (map (fun i => xdiv (XFin 1) (xdhat (Q i k) k)) (seq 0 n))) (XFin (INR n)))) ks))
            (XFin (INR (length ks))).
Lemma seq_order (order : list nat) n : Permutation order (seq 0 n) -> map (fun i => nth i order 0%nat) (seq 0 n) = order.
Proof.
  intros P. assert (L := Permutation_length P). rewrite seq_length in L. rewrite <- L. now rewrite (P_KNN.map_nth_seq (fun x => x) order 0%nat), map_id.
Qed.
Lemma order_map {A} (g : nat -> A) order n : Permutation order (seq 0 n) ->
  map (fun i => g (nth i order 0%nat)) (seq 0 n) = map g order.
Proof. intros P. rewrite <- (map_map (fun i => nth i order 0%nat) g). now rewrite (seq_order order n P). Qed.
Lemma xest_perm e Q n k1 k2 order : Permutation order (seq 0 n) ->
  xest e (fun i k => Q (nth i order 0%nat) k) n k1 k2 = xest e Q n k1 k2.
Proof.
  intros P. unfold xest. cbv zeta. destruct (String.eqb e "levina").
  - f_equal. transitivity (xsum (flat_map (fun i => map (fun k => xdhat (Q i k) k) (seq k1 (k2 + 1 - k1))) order)).
    + rewrite !flat_map_concat_map. do 2 f_equal.
      exact (order_map (fun i => map (fun k => xdhat (Q i k) k) (seq k1 (k2 + 1 - k1))) order n P).
    + apply xsum_perm, Permutation_flat_map, P.
  - f_equal. f_equal. apply map_ext. intros k. f_equal. f_equal.
    transitivity (xsum (map (fun i => xdiv (XFin 1) (xdhat (Q i k) k)) order)).
    + f_equal. exact (order_map (fun i => xdiv (XFin 1) (xdhat (Q i k) k)) order n P).
    + apply xsum_perm, Permutation_map, P.
Qed.
Lemma xest_ext e Q Q' n k1 k2 : (forall i k, (i < n)%nat -> (k1 <= k <= k2)%nat -> Q i k = Q' i k) ->
  xest e Q n k1 k2 = xest e Q' n k1 k2.
Proof.
  intros H. unfold xest. cbv zeta. destruct (String.eqb e "levina").
  - f_equal. f_equal. rewrite !flat_map_concat_map. f_equal. apply map_ext_in. intros i Hi. apply in_seq in Hi.
    apply map_ext_in. intros k Hk. apply in_seq in Hk. rewrite H by lia. reflexivity.
  - f_equal. f_equal. apply map_ext_in. intros k Hk. apply in_seq in Hk. f_equal. f_equal. f_equal.
    apply map_ext_in. intros i Hi. apply in_seq in Hi. rewrite H by lia. reflexivity.
Qed.

(** ** order of the rows and transformation *)
Lemma rmean_perm l l' : Permutation l l' -> rmean l = rmean l'.
Proof. intros P. unfold rmean. now rewrite (rsum_perm _ _ P), (Permutation_length P). Qed.
Lemma rstd_perm l l' : Permutation l l' -> rstd l = rstd l'.
Proof.
  intros P. unfold rstd. assert (E := rmean_perm _ _ P). rewrite E. f_equal. apply rmean_perm, Permutation_map, P.
Qed.
Definition reorder (order : list nat) (x : nat -> nat -> R) (i : nat) : nat -> R := x (nth i order 0%nat).
Lemma feature_reorder order n x f : Permutation order (seq 0 n) ->
  Permutation (feature n (reorder order x) f) (feature n x f).
Proof.
  intros P. unfold feature, reorder. rewrite <- (map_map (fun i => nth i order 0%nat) (fun i => x i f)), (seq_order order n P).
  now apply Permutation_map.
Qed.
Lemma transformed_reorder trafo order n x i f : Permutation order (seq 0 n) ->
  transformed trafo n (reorder order x) i f = transformed trafo n x (nth i order 0%nat) f.
Proof.
  intros P. unfold transformed. destruct trafo as [t|]; [|reflexivity].
  assert (F := feature_reorder order n x f P). now rewrite (rmean_perm _ _ F), (rstd_perm _ _ F).
Qed.
Lemma order_lt (order : list nat) n i : Permutation order (seq 0 n) -> (i < n)%nat -> (nth i order 0 < n)%nat.
Proof.
  intros P Hi. assert (L := Permutation_length P). rewrite seq_length in L.
  assert (I : In (nth i order 0%nat) order) by (apply nth_In; lia). apply (Permutation_in _ P), in_seq in I. lia.
Qed.
Lemma id_rows_fin X n m x order : fin2 X n m x -> Permutation order (seq 0 n) -> fin2 (id_rows order X) n m (reorder order x).
Proof.
  intros (R & C & A) P. split; [exact R|]. split; [exact C|]. intros i f Hi Hf. cbn.
  unfold reorder. apply A; [now apply order_lt|assumption].
Qed.
Lemma col_mean_fin X n m x f : fin2 X n m x -> (0 < n)%nat -> (f < m)%nat ->
  col_mean xsum X f = XFin (rmean (feature n x f)).
Proof.
  intros (R & C & A) Hn Hf. unfold col_mean. rewrite R, nofnat_xr.
  rewrite (xs_fin _ (fun i => x i f)) by (intros i Hi; apply in_seq in Hi; apply A; lia).
  cbn [ndiv Num_xr]. rewrite xdiv_fin by (apply not_0_INR; lia). unfold rmean, feature. now rewrite map_length, seq_length.
Qed.
Lemma id_center_fin X n m x : fin2 X n m x -> (0 < n)%nat ->
  fin2 (id_center xsum X) n m (fun i f => x i f - rmean (feature n x f)).
Proof.
  intros F Hn. assert (F' := F). destruct F' as (R & C & A). split; [exact R|]. split; [exact C|]. intros i f Hi Hf.
  cbn [id_center at2]. rewrite (col_mean_fin X n m x) by assumption. rewrite A by assumption. reflexivity.
Qed.
Lemma centred_mean (l : list R) : l <> [] -> rmean (map (fun v => v - rmean l) l) = 0.
Proof.
  intros H. unfold rmean at 1. rewrite (rsum_minus (fun v => v) (fun _ => rmean l)), map_id, rsum_const, map_length.
  unfold rmean. field. apply not_0_INR. destruct l; [congruence|discriminate].
Qed.
Lemma col_var_fin X n m x f : fin2 X n m x -> (0 < n)%nat -> (f < m)%nat ->
  col_var xsum (id_center xsum X) f = XFin (rstd (feature n x f) * rstd (feature n x f)).
Proof.
  intros F Hn Hf. assert (FC := id_center_fin X n m x F Hn). unfold col_var.
  rewrite (col_mean_fin _ n m _ f FC Hn Hf). cbv zeta. assert (F' := FC). destruct F' as (R & C & A). rewrite R, nofnat_xr.
  assert (NE : feature n x f <> []) by (unfold feature; destruct n; [lia|discriminate]).
  assert (Z : rmean (feature n (fun i f => x i f - rmean (feature n x f)) f) = 0).
  { transitivity (rmean (map (fun v => v - rmean (feature n x f)) (feature n x f))); [|now apply centred_mean].
    f_equal. set (c := rmean (feature n x f)). unfold feature. rewrite map_map. reflexivity. }
  rewrite Z.
  rewrite (xs_fin _ (fun i => (x i f - rmean (feature n x f)) * (x i f - rmean (feature n x f)))).
  2:{ intros i Hi. apply in_seq in Hi. rewrite A by lia. cbn. f_equal. ring. }
  cbn [ndiv Num_xr]. rewrite xdiv_fin by (apply not_0_INR; lia). f_equal.
  unfold rstd. rewrite sqrt_sqrt.
  - set (c := rmean (feature n x f)). unfold rmean. rewrite map_length. unfold feature. rewrite map_map, map_length, seq_length. reflexivity.
  - apply rmean_nonneg. intros v Hv. apply in_map_iff in Hv as (y & <- & _). apply Rle_0_sqr.
Qed.
Lemma tiny_xr : tiny = XFin (/ 10000000).
Proof. unfold tiny. cbn. destruct (Req_EM_T 10000000 0); [lra|]. f_equal. lra. Qed.
Lemma id_trafo_fin trafo X n m x : fin2 X n m x -> (0 < n)%nat -> trafo_ok trafo ->
  exists Y, id_trafo xsum trafo X = Ok Y /\ fin2 Y n m (transformed trafo n x).
Proof.
  intros F Hn Ht. assert (FC := id_center_fin X n m x F Hn). assert (F' := F). destruct F' as (R & C & A).
  destruct FC as (RC & CC & AC).
  assert (P7 : 0 < / 10000000) by lra.
  destruct Ht as [->|[->| ->]]; cbn [id_trafo String.eqb Ascii.eqb Bool.eqb]; eexists; (split; [reflexivity|]).
  - exact F.
  - split; [exact R|]. split; [exact C|]. intros i f Hi Hf. cbn [at2]. rewrite AC, (col_var_fin X n m x) by assumption.
    rewrite tiny_xr. pose proof (rstd_nonneg (feature n x f)) as N1.
    cbn [nsqrt Num_xr xsqrt]. destruct (Rlt_dec _ 0) as [B|_]; [nra|].
    rewrite sqrt_square by assumption. cbn [nadd ndiv Num_xr xadd]. rewrite xdiv_fin by lra. reflexivity.
  - split; [exact R|]. split; [exact C|]. intros i f Hi Hf. cbn [at2]. rewrite AC, (col_var_fin X n m x) by assumption.
    rewrite tiny_xr. pose proof (rstd_nonneg (feature n x f)) as N1.
    cbn [nadd ndiv Num_xr xadd]. rewrite xdiv_fin by nra. reflexivity.
Qed.
Lemma sqdistR_ext m u v u' v' : (forall f, (f < m)%nat -> u f = u' f) -> (forall f, (f < m)%nat -> v f = v' f) ->
  sqdistR m u v = sqdistR m u' v'.
Proof. intros H K. apply rsum_ext. intros f Hf. apply in_seq in Hf. rewrite H, K by lia. reflexivity. Qed.
Lemma fin2_ext X n m x y : fin2 X n m x -> (forall i f, (i < n)%nat -> (f < m)%nat -> x i f = y i f) -> fin2 X n m y.
Proof. intros (R & C & A) H. split; [exact R|]. split; [exact C|]. intros i f Hi Hf. rewrite A by assumption. f_equal. auto. Qed.
Lemma nearest_ext n m x y T : (forall i j, (i < n)%nat -> (j < n)%nat -> edist m x i j = edist m y i j) ->
  nearest_dists n m x T -> nearest_dists n m y T.
Proof.
  intros H HT i Hi. destruct (HT i Hi) as (S & P). split; [exact S|]. etransitivity; [exact P|].
  rewrite (map_ext_in _ (edist m y i)); [reflexivity|]. intros j Hj. apply filter_In in Hj as (Hj & _). apply in_seq in Hj. apply H; lia.
Qed.
Lemma nearest_reorder n m y T order : Permutation order (seq 0 n) -> nearest_dists n m y T ->
  nearest_dists n m (reorder order y) (fun i => T (nth i order 0%nat)).
Proof.
  intros P HT i Hi. assert (Hoi := order_lt order n i P Hi). destruct (HT _ Hoi) as (S & Q). split; [exact S|].
  etransitivity; [exact Q|].
  transitivity (map (edist m y (nth i order 0%nat)) (map (fun j => nth j order 0%nat) (others n i))).
  - apply Permutation_map. apply Permutation_cons_inv with (a := nth i order 0%nat).
    transitivity (seq 0 n); [apply Permutation_sym; exact (others_perm n _ Hoi)|].
    transitivity order; [now apply Permutation_sym|]. rewrite <- (seq_order order n P) at 1.
    change (nth i order 0%nat :: map (fun j => nth j order 0%nat) (others n i)) with (map (fun j => nth j order 0%nat) (i :: others n i)).
    apply Permutation_map, others_perm, Hi.
  - rewrite map_map. reflexivity.
Qed.
Lemma nearest_nonneg n m x T i r : (i < n)%nat -> nearest_dists n m x T -> In r (T i) -> 0 <= r.
Proof.
  intros Hi HT Hr. destruct (HT i Hi) as (_ & P). apply (Permutation_in _ P) in Hr.
  apply in_map_iff in Hr as (j & <- & _). apply edist_nonneg.
Qed.

Theorem id_core sort order X n m x T (k1 k2 : nat) e trafo mem :
  sort_ok sort -> Permutation order (seq 0 n) -> fin2 X n m x -> trafo_ok trafo -> known_estimator e ->
  (1 <= k1 <= k2)%nat -> (k2 < n)%nat -> nearest_dists n m (transformed trafo n x) T ->
  intrinsic_dimension xsum xln sort order X (Z.of_nat k1) (Z.of_nat k2) e "vector" trafo mem
  = Ok (xest e (fun i k => log_ratios (map eff (T i)) k) n k1 k2).
Proof.
  intros SO P FX Ht He Hk Hn HT. unfold intrinsic_dimension.
  assert (FR := id_rows_fin X n m x order FX P).
  destruct (id_trafo_fin trafo _ n m _ FR ltac:(lia) Ht) as (Y & EY & FY).
  assert (FY' : fin2 Y n m (reorder order (transformed trafo n x))).
  { eapply fin2_ext; [exact FY|]. intros i f Hi Hf. now apply transformed_reorder. }
  assert (HT' := nearest_reorder n m _ T order P HT).
  rewrite (proj1 FX).
  assert (G1 : negb (String.eqb e "levina" || String.eqb e "mackay") = false) by (destruct He as [->| ->]; reflexivity).
  assert (G2 : ((Z.of_nat k1 <? 1)%Z || (Z.of_nat k2 <? Z.of_nat k1)%Z || (Z.of_nat n <=? Z.of_nat k2)%Z) = false) by lia.
  rewrite G1, G2. cbn [guard bind]. rewrite String.eqb_refl, EY. cbn [bind]. f_equal. rewrite !Nat2Z.id.
  set (L := id_knn xsum xln sort _ Y).
  rewrite <- (xest_perm e _ n k1 k2 order P).
  assert (DH : forall i k, (i < n)%nat -> (k1 <= k <= k2)%nat -> dhat (L i) k = xdhat (log_ratios (map eff (T (nth i order 0%nat))) k) k).
  { intros i k Hi Hkk. apply dhat_fin.
    - assert (LL := nearest_len n m _ _ i Hi HT'). cbn beta in LL. rewrite LL. lia.
    - intros r Hr. exact (nearest_nonneg n m _ _ i r Hi HT' Hr).
    - intros t Htk. unfold L.
      exact (id_knn_fin Y n m _ FY' sort _ (fun i => T (nth i order 0%nat)) i t SO HT' Hi ltac:(lia)). }
  unfold xest, id_levina, id_mackay. cbv zeta. destruct (String.eqb e "levina").
  - rewrite nofnat_xr. cbn [ndiv Num_xr]. f_equal. f_equal. rewrite !flat_map_concat_map. f_equal.
    apply map_ext_in. intros i Hi. apply in_seq in Hi. apply map_ext_in. intros k Hkk. apply in_seq in Hkk. apply DH; lia.
  - rewrite !nofnat_xr. cbn [ndiv Num_xr]. f_equal. f_equal.
    apply map_ext_in. intros k Hkk. apply in_seq in Hkk. f_equal. f_equal. f_equal.
    apply map_ext_in. intros i Hi. apply in_seq in Hi. rewrite DH by lia. reflexivity.
Qed.

(** ** finite estimates *)
Lemma xdhat_fin q k : q <> 0 -> xdhat q k = XFin ((INR k - 2) / q).
Proof. intros H. unfold xdhat. rewrite xdiv_fin by lra. f_equal. field. exact H. Qed.
Lemma flat_map_XFin {A B} (g : A -> B -> R) la lb :
  flat_map (fun a => map (fun b => XFin (g a b)) lb) la = map XFin (flat_map (fun a => map (g a) lb) la).
Proof. induction la as [|a la IH]; [reflexivity|]. cbn. rewrite map_app, IH, map_map. reflexivity. Qed.
Lemma flat_map_ext_in' {A B} (f g : A -> list B) l : (forall a, In a l -> f a = g a) -> flat_map f l = flat_map g l.
Proof. intros H. rewrite !flat_map_concat_map. f_equal. now apply map_ext_in. Qed.
Lemma flat_map_len {A B} (g : A -> B -> R) la lb : length (flat_map (fun a => map (g a) lb) la) = (length la * length lb)%nat.
Proof. induction la as [|a la IH]; [reflexivity|]. cbn. now rewrite app_length, map_length, IH. Qed.

Lemma xest_levina_fin (T : nat -> list R) n k1 k2 : (0 < n)%nat -> (k1 <= k2)%nat ->
  (forall i k, (i < n)%nat -> (k1 <= k <= k2)%nat -> log_ratios (T i) k <> 0) ->
  xest "levina" (fun i k => log_ratios (T i) k) n k1 k2 = XFin (levina_estimate T n k1 k2).
Proof.
  intros Hn Hk H. unfold xest. cbv zeta. cbn [String.eqb Ascii.eqb Bool.eqb].
  rewrite (flat_map_ext_in' _ (fun i => map (fun k => XFin (local_dim (T i) k)) (seq k1 (k2 + 1 - k1)))).
  2:{ intros i Hi. apply in_seq in Hi. apply map_ext_in. intros k Hkk. apply in_seq in Hkk. apply xdhat_fin, H; lia. }
  rewrite flat_map_XFin, xsum_fin, xdiv_fin by (apply not_0_INR; rewrite seq_length; nia).
  unfold levina_estimate, rmean. rewrite (flat_map_len (fun i k => local_dim (T i) k)). now rewrite !seq_length.
Qed.
Lemma mackay_k_fin (T : nat -> list R) n k : (0 < n)%nat -> (3 <= k)%nat ->
  (forall i, (i < n)%nat -> log_ratios (T i) k <> 0) ->
  xdiv (xsum (map (fun i => xdiv (XFin 1) (xdhat (log_ratios (T i) k) k)) (seq 0 n))) (XFin (INR n))
  = XFin (rmean (map (fun i => / local_dim (T i) k) (seq 0 n))).
Proof.
  intros Hn Hk H. assert (P := lt_0_INR n Hn). apply le_INR in Hk. change (INR 3) with (1 + 1 + 1) in Hk.
  rewrite (xs_fin _ (fun i => / local_dim (T i) k)).
  - rewrite xdiv_fin by lra. unfold rmean. now rewrite map_length, seq_length.
  - intros i Hi. apply in_seq in Hi. assert (Q := H i ltac:(lia)). rewrite xdhat_fin by exact Q.
    assert (NZ : (INR k - 2) / log_ratios (T i) k <> 0).
    { intros C. apply Q. apply Rmult_eq_reg_r with (INR k - 2); [|lra].
      assert (E : (INR k - 2) / log_ratios (T i) k * log_ratios (T i) k = INR k - 2) by (field; exact Q). rewrite C in E. lra. }
    rewrite xdiv_fin by exact NZ. unfold local_dim. f_equal. lra.
Qed.
Lemma xest_mackay_fin (T : nat -> list R) n k1 k2 : (0 < n)%nat -> (3 <= k1 <= k2)%nat ->
  (forall i k, (i < n)%nat -> (k1 <= k <= k2)%nat -> log_ratios (T i) k <> 0) ->
  (forall k, (k1 <= k <= k2)%nat -> rmean (map (fun i => / local_dim (T i) k) (seq 0 n)) <> 0) ->
  xest "mackay" (fun i k => log_ratios (T i) k) n k1 k2 = XFin (mackay_estimate T n k1 k2).
Proof.
  intros Hn Hk H HM. unfold xest. cbv zeta. cbn [String.eqb Ascii.eqb Bool.eqb].
  rewrite (xs_fin _ (fun k => / rmean (map (fun i => / local_dim (T i) k) (seq 0 n)))).
  - rewrite xdiv_fin by (apply not_0_INR; rewrite seq_length; lia).
    unfold mackay_estimate. set (g := fun k => / rmean _). unfold rmean. now rewrite map_length.
  - intros k Hkk. apply in_seq in Hkk. rewrite mackay_k_fin by (try lia; intros; apply H; lia).
    rewrite xdiv_fin by (apply HM; lia). f_equal. lra.
Qed.

(** ** sorted positive distances *)
Lemma ssorted_nth l i j : StronglySorted Rle l -> (i <= j)%nat -> (j < length l)%nat -> nth i l 0 <= nth j l 0.
Proof.
  revert i j. induction l as [|a l IH]; intros i j S Hij Hj; [cbn in Hj; lia|].
  inversion S as [|? ? S1 F1]; subst. cbn in Hj. destruct j as [|j].
  - replace i with 0%nat by lia. lra.
  - destruct i as [|i]; cbn; [|apply IH; auto; lia]. rewrite Forall_forall in F1. apply F1, nth_In. lia.
Qed.
Lemma map_eff_id l : (forall r, In r l -> 0 < r) -> map eff l = l.
Proof.
  intros H. rewrite <- (map_id l) at 2. apply map_ext_in. intros r Hr. apply H in Hr. unfold eff.
  destruct (Req_EM_T r 0); lra.
Qed.
Lemma ssorted_pos l : StronglySorted Rle l -> (0 < length l)%nat -> 0 < kth_dist l 1 -> forall r, In r l -> 0 < r.
Proof.
  intros S L H r Hr. destruct (In_nth l r 0 Hr) as (j & Hj & <-).
  pose proof (ssorted_nth l 0 j S ltac:(lia) Hj). unfold kth_dist in H. cbn in H. lra.
Qed.
Lemma ln_nonneg1 x : 1 <= x -> 0 <= ln x.
Proof. intros H. destruct (Req_dec x 1) as [->|]; [rewrite ln_1; lra|]. left. rewrite <- ln_1. apply ln_increasing; lra. Qed.
Lemma ratio_ge1 a b : 0 < a -> a <= b -> 1 <= b / a.
Proof. intros Ha H. apply Rmult_le_reg_r with a; [assumption|]. unfold Rdiv. rewrite Rmult_assoc, Rinv_l by lra. lra. Qed.
Lemma ratio_gt1 a b : 0 < a -> a < b -> 1 < b / a.
Proof. intros Ha H. apply Rmult_lt_reg_r with a; [assumption|]. unfold Rdiv. rewrite Rmult_assoc, Rinv_l by lra. lra. Qed.
Lemma log_ratios_pos l k1 k : StronglySorted Rle l -> (1 <= k1 <= k)%nat -> (k <= length l)%nat ->
  0 < kth_dist l 1 -> kth_dist l 1 < kth_dist l k1 -> 0 < log_ratios l k.
Proof.
  intros S Hk HL H1 H2. unfold log_ratios.
  assert (K2 : (2 <= k1)%nat).
  { destruct k1 as [|[|k1]]; [lia| |lia]. lra. }
  replace (seq 1 (k - 1)) with (1%nat :: seq 2 (k - 2)) by (replace (k - 1)%nat with (Datatypes.S (k - 2)) by lia; reflexivity).
  cbn [map]. set (rest := map _ _).
  assert (A : 0 < ln (kth_dist l k / kth_dist l 1)).
  { rewrite <- ln_1. apply ln_increasing; [lra|]. apply ratio_gt1; [assumption|].
    apply Rlt_le_trans with (kth_dist l k1); [assumption|]. apply ssorted_nth; auto; lia. }
  assert (B : 0 <= rsum rest).
  { apply rsum_nonneg. intros r Hr. apply in_map_iff in Hr as (j & <- & Hj). apply in_seq in Hj.
    assert (P : forall j, (1 <= j <= length l)%nat -> 0 < kth_dist l j).
    { intros j' Hj'. apply (ssorted_pos l S); [lia|assumption|]. apply nth_In. lia. }
    apply ln_nonneg1, ratio_ge1; [apply P; lia|]. apply ssorted_nth; auto; lia. }
  change (rsum (ln (kth_dist l k / kth_dist l 1) :: rest)) with (ln (kth_dist l k / kth_dist l 1) + rsum rest). lra.
Qed.
