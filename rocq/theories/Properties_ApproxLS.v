(** Property C70: approximate local scaling and NICDM with fixed vantage points. *)
From Coq Require Import String.
From Coq Require Import ZArith List Arith Lia Bool Permutation Reals Lra.
From Verif Require Import Py Num NumT NumF32 Arr Sort S_Neighbors S_LS S_Approx M_Approx.
From Verif Require Import P_LS P_NICDM P_ApproxFixed P_ApproxMPG P_ApproxLS.
Import ListNotations.
Local Open Scope nat_scope.

(** What the class accepts: clean data of equal width, a usable metric, a sample
    that random sampling can draw, at least one vantage point, k >= 1. *)
Definition ls_inputs {V} {N : Num V} metric k s ns (Xall X : arr2 V) : Prop :=
  1 <= k /\ clean Xall /\ clean X /\ ncol X = ncol Xall /\ (metric = "sqeuclidean" \/ metric = "cosine")%string /\
  (forall ind, s = SRandom ind -> ns < nrow Xall) /\ 0 < length (vantage s (nrow Xall)).
(** distances: query i to vantage point l, between vantage points *)
Definition dq {V} (sdist : string -> nat -> (nat -> V) -> (nat -> V) -> V) metric s (Xall X : arr2 V) i l : V :=
  sdist metric (ncol X) (at2 X i) (at2 Xall (nth l (vantage s (nrow Xall)) 0)).
Definition dvv {V} (sdist : string -> nat -> (nat -> V) -> (nat -> V) -> V) metric s (Xall : arr2 V) j l : V :=
  sdist metric (ncol Xall) (at2 Xall (nth j (vantage s (nrow Xall)) 0)) (at2 Xall (nth l (vantage s (nrow Xall)) 0)).

Lemma ls_run {V} {N : Num V} part nicdm vsum sdist vexp metric k s ns (Xall X : arr2 V) :
  ls_inputs metric k s ns Xall X ->
  let v := vantage s (nrow Xall) in
  ls_fixed vsum sdist vexp part nicdm metric k s ns Xall X =
  if k <? length v then
    Ok (Arr2 (nrow X) (length v) (fun i j => M_Approx.ls_cell vsum vexp nicdm k (dq sdist metric s Xall X i j)
      (nth i (map (fun i => slice (part (map (dq sdist metric s Xall X i) (seq 0 (length v))) [k - 1]) 0 k) (seq 0 (nrow X))) [])
      (nth j (map (fun j => slice (part (self_row sdist metric (rows_at Xall v) j) [k]) 1 (k + 1)) (seq 0 (length v))) [])))
  else Raise ValueError.
Proof.
  intros (Hk & C1 & C2 & C3 & Hm & Hs & Hv) v.
  apply ls_fixed_eq; auto.
  - destruct s as [|l|l]; cbn; auto. exact (Hs l eq_refl).
  - unfold known_metric. destruct Hm as [->| ->]; reflexivity.
Qed.
Lemma Ok_inj {A} (a b : A) : Ok a = Ok b -> a = b.
Proof. now intros [=]. Qed.
Lemma other_row_dvv {V} (sdist : string -> nat -> (nat -> V) -> (nat -> V) -> V) metric s (Xall : arr2 V) j :
  other_row sdist metric (rows_at Xall (vantage s (nrow Xall))) j = map (dvv sdist metric s Xall j) (but j (length (vantage s (nrow Xall)))).
Proof. reflexivity. Qed.

(** float32.  Local scaling: 1 - exp(-d^2 / (r_x r_t)) where r_x is the k-th
    smallest distance of the query, r_t the k-th smallest distance of the vantage
    point to the other vantage points, for every legal result of np.partition.
    It needs more than k vantage points, otherwise there is a ValueError. *)
Theorem C70_ls_value :
  forall part vsum vexp sdist metric k s ns (Xall X : arr2 f32),
    let v := vantage s (nrow Xall) in
    part_ok part -> ls_inputs metric k s ns Xall X ->
    (forall i l, i < nrow X -> l < length v -> nisnan (dq sdist metric s Xall X i l) = false) ->
    (forall j l, j < length v -> l < length v -> nle n0 (dvv sdist metric s Xall j l) = true) ->
    (length v <= k -> ls_fixed vsum sdist vexp part false metric k s ns Xall X = Raise ValueError) /\
    (k < length v -> exists R rx rt,
      ls_fixed vsum sdist vexp part false metric k s ns Xall X = Ok R /\ nrow R = nrow X /\ ncol R = length v /\
      (forall i, i < nrow X -> has_rank (map (dq sdist metric s Xall X i) (seq 0 (length v))) k (rx i)) /\
      (forall j, j < length v -> has_rank (map (dvv sdist metric s Xall j) (but j (length v))) k (rt j)) /\
      forall i j, i < nrow X -> j < length v ->
        let d := dq sdist metric s Xall X i j in
        at2 R i j = nsub n1 (vexp (ndiv (nmul (nofZ (-1)) (nmul d d)) (nmul (rx i) (rt j))))).
Proof.
  intros part vsum vexp sdist metric k s ns Xall X v Hp HI Hx Hv.
  pose proof (ls_run part false vsum sdist vexp metric k s ns Xall X HI) as E. cbv zeta in E. fold v in E. rewrite E.
  destruct HI as (Hk & _). split.
  - intros H. destruct (Nat.ltb_spec k (length v)); [lia|reflexivity].
  - intros H. destruct (Nat.ltb_spec k (length v)); [|lia].
    set (row i := map (dq sdist metric s Xall X i) (seq 0 (length v))).
    set (srow j := self_row sdist metric (rows_at Xall v) j).
    eexists. exists (fun i => vat (part (row i) [k - 1]) (k - 1)), (fun j => vat (part (srow j) [k]) k).
    split; [reflexivity|]. split; [reflexivity|]. split; [reflexivity|].
    assert (Lr : forall i, length (row i) = length v) by (intros; unfold row; now rewrite map_length, seq_length).
    assert (Ls : forall j, length (srow j) = length v) by (intros; unfold srow; apply self_row_length).
    split; [|split].
    + intros i Hi.
      assert (K : kth_smallest (row i) (S (k - 1)) (vat (part (row i) [k - 1]) (k - 1))).
      { apply (part_kth_smallest f32_cmp).
        - apply Hp. intros z [<-|[]]. rewrite Lr. lia.
        - rewrite Lr. lia.
        - intros x Hin. apply in_map_iff in Hin as (l & <- & Hl). apply in_seq in Hl. apply Hx; lia. }
      replace (S (k - 1)) with k in K by lia. exact (proj2 K).
    + intros j Hj.
      assert (Ho : forall x, In x (map (dvv sdist metric s Xall j) (but j (length v))) -> nle n0 x = true).
      { intros x Hin. apply in_map_iff in Hin as (l & <- & Hl). apply filter_In in Hl as (Hl & _). apply in_seq in Hl. apply Hv; lia. }
      assert (P : Permutation (srow j) (n0 :: map (dvv sdist metric s Xall j) (but j (length v)))) by (apply self_row_perm; exact Hj).
      apply (drop_zero f32_cmp (srow j)); auto.
      apply (part_kth_smallest f32_cmp).
      * apply Hp. intros z [<-|[]]. rewrite Ls. lia.
      * rewrite Ls. lia.
      * intros x Hin. eapply Permutation_in in Hin; [|exact P]. destruct Hin as [<-|Hin]; [reflexivity|].
        exact (proj2 (nle_nan_r f32_cmp _ _ (Ho x Hin))).
    + intros i j Hi Hj d. cbn [at2]. unfold M_Approx.ls_cell. rewrite !nth_map_seq by assumption. fold (row i). fold (srow j).
      rewrite nth_slice0, nth_slice1; [reflexivity| lia | | lia |].
      * rewrite (Permutation_length (proj1 (Hp (srow j) [k] ltac:(intros z [<-|[]]; rewrite Ls; lia)))). rewrite Ls. lia.
      * rewrite (Permutation_length (proj1 (Hp (row i) [k - 1] ltac:(intros z [<-|[]]; rewrite Lr; lia)))). rewrite Lr. lia.
Qed.

(** The metric 'precomputed' is accepted by the constructor but makes fit fail. *)
Theorem C70_unknown_metric :
  forall part vsum vexp sdist nicdm metric k s ns (Xall X : arr2 f32),
    clean Xall -> (forall ind, s = SRandom ind -> ns < nrow Xall) ->
    metric <> "sqeuclidean"%string -> metric <> "cosine"%string ->
    ls_fixed vsum sdist vexp part nicdm metric k s ns Xall X = Raise UnboundLocalError.
Proof.
  intros part vsum vexp sdist nicdm metric k s ns Xall X C Hs H1 H2. unfold ls_fixed.
  assert (SF : sampling_fits s (nrow Xall) ns) by (destruct s as [|l|l]; cbn; auto; exact (Hs l eq_refl)).
  assert (E1 : fit_check Xall = Ok tt) by (now apply check_array_iff).
  assert (E2 : sampling_check s (nrow Xall) ns = Ok tt).
  { assert (E := proj2 (fit_ok_iff Xall s ns) (conj C SF)). rewrite E1 in E. exact E. }
  rewrite E1, E2. cbn [bind]. unfold ls_fit, known_metric.
  apply String.eqb_neq in H1, H2. rewrite H1, H2. reflexivity.
Qed.

(** Exact arithmetic: local scaling values are in [0, 1), and 0 only at distance 0,
    if fewer than k distances of the query, and of the vantage point to the
    others, are zero. *)
Theorem C70_ls_range :
  forall part sdist metric k s ns (Xall X R : arr2 xr) dx dv i j,
    let v := vantage s (nrow Xall) in
    part_ok part -> ls_inputs metric k s ns Xall X -> k < length v ->
    (forall i l, dq sdist metric s Xall X i l = XFin (dx i l) /\ (0 <= dx i l)%R) ->
    (forall j l, dvv sdist metric s Xall j l = XFin (dv j l) /\ (0 <= dv j l)%R) ->
    ls_fixed xsum sdist xexp part false metric k s ns Xall X = Ok R ->
    i < nrow X -> j < length v ->
    length (filter (fun x => nle (V:=xr) x n0) (map (fun l => XFin (dx i l)) (seq 0 (length v)))) < k ->
    length (filter (fun x => nle (V:=xr) x n0) (map (fun l => XFin (dv j l)) (but j (length v)))) < k ->
    exists r, at2 R i j = XFin r /\ (0 <= r < 1)%R /\ (r = 0 <-> dx i j = 0)%R.
Proof.
  intros part sdist metric k s ns Xall X R dx dv i j v Hp HI Hkv Hx Hv E Hi Hj Z1 Z2.
  pose proof (ls_run part false xsum sdist xexp metric k s ns Xall X HI) as E'. cbv zeta in E'. fold v in E'.
  rewrite E in E'. destruct (Nat.ltb_spec k (length v)); [|lia]. apply Ok_inj in E'. rewrite E'. clear E'. cbn [at2]. destruct HI as (Hk & _).
  unfold M_Approx.ls_cell. rewrite !nth_map_seq by assumption.
  set (row := map (dq sdist metric s Xall X i) (seq 0 (length v))).
  set (srow := self_row sdist metric (rows_at Xall v) j).
  assert (Lr : length row = length v) by (intros; unfold row; now rewrite map_length, seq_length).
  assert (Ls : length srow = length v) by (intros; unfold srow; apply self_row_length).
  assert (I1 : is_part row [k - 1] (part row [k - 1])) by (apply Hp; intros z [<-|[]]; rewrite Lr; lia).
  assert (I2 : is_part srow [k] (part srow [k])) by (apply Hp; intros z [<-|[]]; rewrite Ls; lia).
  rewrite nth_slice0, nth_slice1; [| lia | rewrite (Permutation_length (proj1 I2)), Ls; lia | lia | rewrite (Permutation_length (proj1 I1)), Lr; lia].
  assert (Er : row = map (fun l => XFin (dx i l)) (seq 0 (length v))) by (apply map_ext; intros; apply Hx).
  set (o := map (dvv sdist metric s Xall j) (but j (length v))).
  assert (Eo : o = map (fun l => XFin (dv j l)) (but j (length v))) by (apply map_ext; intros; apply Hv).
  assert (P : Permutation srow (n0 :: o)) by (apply self_row_perm; exact Hj).
  assert (N1 : forall x, In x row -> exists r, x = XFin r /\ (0 <= r)%R).
  { rewrite Er. intros x Hin. apply in_map_iff in Hin as (l & <- & _). eexists. split; [reflexivity|]. apply Hx. }
  assert (N2 : forall x, In x o -> exists r, x = XFin r /\ (0 <= r)%R).
  { rewrite Eo. intros x Hin. apply in_map_iff in Hin as (l & <- & _). eexists. split; [reflexivity|]. apply Hv. }
  assert (N3 : forall x, In x srow -> exists r, x = XFin r /\ (0 <= r)%R).
  { intros x Hin. eapply Permutation_in in Hin; [|exact P]. destruct Hin as [<-|Hin]; [exists 0%R; split; [reflexivity|lra]|auto]. }
  pose proof (part_kth_smallest xr_cmp row _ (k - 1) I1 ltac:(lia)) as K1.
  pose proof (part_kth_smallest xr_cmp srow _ k I2 ltac:(lia)) as K2.
  specialize (K1 ltac:(intros x Hin; destruct (N1 x Hin) as (r & -> & _); reflexivity)).
  specialize (K2 ltac:(intros x Hin; destruct (N3 x Hin) as (r & -> & _); reflexivity)).
  assert (K3 : has_rank o k (vat (part srow [k]) k)).
  { apply (drop_zero xr_cmp srow); auto. intros x Hin. destruct (N2 x Hin) as (r & -> & Hr). cbn. destruct (Rle_dec 0 r); [reflexivity|contradiction]. }
  destruct (N1 _ (proj1 K1)) as (rx & Ex & Hrx). destruct (N3 _ (proj1 K2)) as (rt & Et & Hrt).
  rewrite Ex in *. rewrite Et in *.
  assert (Px : (0 < rx)%R).
  { destruct (Rle_lt_or_eq_dec 0 rx Hrx) as [G|G]; [exact G|exfalso]. destruct K1 as (_ & _ & K1). rewrite <- G in K1.
    rewrite Er in K1. change (XFin 0) with (n0 (V:=xr)) in K1. lia. }
  assert (Pt : (0 < rt)%R).
  { destruct (Rle_lt_or_eq_dec 0 rt Hrt) as [G|G]; [exact G|exfalso]. destruct K3 as (_ & K3). rewrite <- G in K3.
    rewrite Eo in K3. change (XFin 0) with (n0 (V:=xr)) in K3. lia. }
  destruct (Hx i j) as (Ed & Hd). rewrite Ed. set (d := dx i j) in *.
  assert (Q : (0 < rx * rt)%R) by (apply Rmult_lt_0_compat; assumption).
  assert (Ev : ndiv (nmul (nofZ (-1)) (nmul (XFin d) (XFin d))) (nmul (XFin rx) (XFin rt)) = XFin (- (d * d / (rx * rt)))).
  { cbn. destruct (Req_EM_T (rx * rt) 0); [lra|]. f_equal. field. split; lra. }
  rewrite Ev. exists (1 - exp (- (d * d / (rx * rt))))%R. split; [reflexivity|].
  assert (T : (0 <= d * d / (rx * rt))%R).
  { apply Rmult_le_pos; [nra|]. left. now apply Rinv_0_lt_compat. }
  pose proof (exp_pos (- (d * d / (rx * rt)))) as Pe.
  assert (Le : (exp (- (d * d / (rx * rt))) <= 1)%R).
  { rewrite <- exp_0. destruct T as [T|T]; [left; apply exp_increasing; lra|]. rewrite <- T, Ropp_0. lra. }
  split; [lra|]. split.
  - intros H0. destruct (Rle_lt_or_eq_dec 0 d Hd) as [G|G]; [exfalso|now symmetry].
    assert (T' : (0 < d * d / (rx * rt))%R) by (apply Rmult_lt_0_compat; [nra|now apply Rinv_0_lt_compat]).
    assert (X' : (exp (- (d * d / (rx * rt))) < exp 0)%R) by (apply exp_increasing; lra). rewrite exp_0 in X'. lra.
  - intros ->. replace (- (0 * 0 / (rx * rt)))%R with 0%R by (field; lra). rewrite exp_0. lra.
Qed.

(** NICDM, exact arithmetic.  [so j]: k smallest distances of the vantage point j
    to the others, whose mean is the radius NICDM is defined with; likewise [sx].
    For every legal np.partition the radius used for j is that mean minus x0/k,
    where x0 is 0 or one of the distances of j. *)
Theorem C70_nicdm_value :
  forall part vexp sdist metric k s ns (Xall X : arr2 xr) dx dv so sx,
    let v := vantage s (nrow Xall) in
    part_ok part -> ls_inputs metric k s ns Xall X -> k < length v ->
    (forall i l, dq sdist metric s Xall X i l = XFin (dx i l)) ->
    (forall j l, dvv sdist metric s Xall j l = XFin (dv j l) /\ (0 <= dv j l)%R) ->
    (forall j, j < length v -> k_smallest (map (fun l => XFin (dv j l)) (but j (length v))) k (map XFin (so j))) ->
    (forall i, i < nrow X -> k_smallest (map (fun l => XFin (dx i l)) (seq 0 (length v))) k (map XFin (sx i))) ->
    exists R x0,
      ls_fixed xsum sdist vexp part true metric k s ns Xall X = Ok R /\
      (forall j, j < length v -> (0 <= x0 j)%R /\ (x0 j = 0%R \/ exists l, l < length v /\ l <> j /\ x0 j = dv j l)) /\
      forall i j, i < nrow X -> j < length v ->
        at2 R i j = ndiv (XFin (dx i j)) (nsqrt (XFin (rmean (sx i) * (rmean (so j) - x0 j / INR k)))).
Proof.
  intros part vexp sdist metric k s ns Xall X dx dv so sx v Hp HI Hkv Hx Hv Hso Hsx.
  pose proof (ls_run part true xsum sdist vexp metric k s ns Xall X HI) as E. cbv zeta in E. fold v in E. rewrite E.
  destruct (Nat.ltb_spec k (length v)); [|lia]. destruct HI as (Hk & _).
  set (srow j := self_row sdist metric (rows_at Xall v) j).
  set (row i := map (dq sdist metric s Xall X i) (seq 0 (length v))).
  set (o j := map (fun l => XFin (dv j l)) (but j (length v))).
  assert (P : forall j, j < length v -> Permutation (srow j) (XFin 0 :: o j)).
  { intros j Hj. unfold srow. rewrite (self_row_perm sdist metric (rows_at Xall v) j Hj). cbn [rows_at nrow]. apply perm_skip.
    unfold o. change (other_row sdist metric (rows_at Xall v) j) with (map (dvv sdist metric s Xall j) (but j (length v))). erewrite map_ext; [reflexivity|]. intros l. apply Hv. }
  assert (Hof : forall j x, In x (o j) -> exists r, x = XFin r /\ (0 <= r)%R).
  { intros j x Hin. apply in_map_iff in Hin as (l & <- & _). eexists. split; [reflexivity|]. apply Hv. }
  assert (Lo : forall j, j < length v -> length (o j) = length v - 1) by (intros; unfold o; rewrite map_length; now apply but_length).
  assert (Ls : forall j, length (srow j) = length v) by (intros; unfold srow; apply self_row_length).
  assert (Lr : forall i, length (row i) = length v) by (intros; unfold row; now rewrite map_length, seq_length).
  assert (FM : forall l, map fin_of (map XFin l) = l) by (intros l; rewrite map_map; apply map_id).
  assert (Lk : forall a b c, k_smallest a b (map XFin c) -> length c = b) by (intros a b c (L & _); now rewrite map_length in L).
  eexists. exists (fun j => fin_of (vat (part (srow j) [k]) 0)). split; [reflexivity|].
  assert (G := fun j (Hj : j < length v) => nicdm_sum (o j) (srow j) (Hof j) (P j Hj) (part (srow j) [k]) k (map XFin (so j))
       (Hp (srow j) [k] ltac:(intros z [<-|[]]; rewrite Ls; lia)) ltac:(rewrite Lo by exact Hj; lia) (Hso j Hj)).
  split.
  - intros j Hj. destruct (G j Hj) as (x0 & -> & H0 & Hin & _). cbn [fin_of]. split; [exact H0|].
    destruct Hin as [Hin|Hin]; [left; now injection Hin|right]. apply in_map_iff in Hin as (l & El & Hl). injection El as El.
    apply filter_In in Hl as (Hl & Hne). apply in_seq in Hl. exists l. split; [lia|]. split; [|now symmetry].
    intros ->. now rewrite Nat.eqb_refl in Hne.
  - intros i j Hi Hj. cbn [at2]. unfold M_Approx.ls_cell. rewrite !nth_map_seq by assumption. fold (row i). fold (srow j).
    rewrite (Hx i j).
    destruct (G j Hj) as (x0 & E0 & H0 & _ & Fq & Lq & Eq). rewrite E0. cbn [fin_of].
    assert (Kx : k_smallest (row i) k (firstn k (part (row i) [k - 1]))).
    { assert (KK := part_one_smallest xr_cmp (row i) (part (row i) [k - 1]) (k - 1) (Hp (row i) [k - 1] ltac:(intros z [<-|[]]; rewrite Lr; lia)) ltac:(rewrite Lr; lia)).
      replace (S (k - 1)) with k in KK by lia. exact KK. }
    assert (Frow : forall x, In x (row i) -> xisfin x = true).
    { intros x Hin. apply in_map_iff in Hin as (l & <- & _). now rewrite Hx. }
    assert (Erow : row i = map (fun l => XFin (dx i l)) (seq 0 (length v))) by (apply map_ext; intros; apply Hx).
    pose proof (k_smallest_sum (row i) k _ (map XFin (sx i)) Frow Kx ltac:(rewrite Erow; now apply Hsx)) as Ex.
    assert (Fx : forall x, In x (firstn k (part (row i) [k - 1])) -> xisfin x = true).
    { intros x Hin. apply Frow. eapply k_smallest_incl; eauto. }
    assert (Lx : length (firstn k (part (row i) [k - 1])) = k) by (apply (proj1 Kx)).
    unfold slice at 1. rewrite Nat.sub_0_r. cbn [skipn].
    assert (PK : INR k <> 0%R) by (apply not_0_INR; lia).
    assert (M1 : vmean_ xsum (firstn k (part (row i) [k - 1])) = XFin (rmean (sx i))).
    { rewrite (fin_list _ Fx). rewrite vmean_xr by (intros C; apply (f_equal (@length R)) in C; rewrite map_length, Lx in C; cbn in C; lia).
      f_equal. unfold rmean. rewrite Ex, FM, map_length, Lx. rewrite (Lk _ _ _ (Hsx i Hi)). reflexivity. }
    assert (M2 : vmean_ xsum (slice (part (srow j) [k]) 1 (k + 1)) = XFin (rmean (so j) - x0 / INR k)).
    { rewrite (fin_list _ Fq). rewrite vmean_xr by (intros C; apply (f_equal (@length R)) in C; rewrite map_length, Lq in C; cbn in C; lia).
      f_equal. unfold rmean. rewrite Eq, FM, map_length, Lq. rewrite (Lk _ _ _ (Hso j Hj)). field. exact PK. }
    rewrite M1, M2. reflexivity.
Qed.

(** DEFECT: np.partition promises the k+1 smallest values in the first k+1
    positions, but not which of them comes first.  A sorting partition drops the
    self distance (x0 = 0), another legal one drops the (k-1)-th nearest
    neighbour distance w of every vantage point. *)
Theorem C70_nicdm_depends_on_partition :
  forall vexp sdist metric k s ns (Xall X : arr2 xr) dx dv so sx,
    let v := vantage s (nrow Xall) in
    ls_inputs metric k s ns Xall X -> 2 <= k < length v ->
    (forall i l, dq sdist metric s Xall X i l = XFin (dx i l)) ->
    (forall j l, dvv sdist metric s Xall j l = XFin (dv j l) /\ (0 <= dv j l)%R) ->
    (forall j, j < length v -> k_smallest (map (fun l => XFin (dv j l)) (but j (length v))) k (map XFin (so j))) ->
    (forall i, i < nrow X -> k_smallest (map (fun l => XFin (dx i l)) (seq 0 (length v))) k (map XFin (sx i))) ->
    exists part part' R R' w,
      part_ok part /\ part_ok part' /\
      ls_fixed xsum sdist vexp part true metric k s ns Xall X = Ok R /\
      ls_fixed xsum sdist vexp part' true metric k s ns Xall X = Ok R' /\
      (forall j, j < length v -> has_rank (map (fun l => XFin (dv j l)) (but j (length v))) (k - 1) (XFin (w j))) /\
      forall i j, i < nrow X -> j < length v ->
        at2 R i j = ndiv (XFin (dx i j)) (nsqrt (XFin (rmean (sx i) * rmean (so j)))) /\
        at2 R' i j = ndiv (XFin (dx i j)) (nsqrt (XFin (rmean (sx i) * (rmean (so j) - w j / INR k)))).
Proof.
  intros vexp sdist metric k s ns Xall X dx dv so sx v HI Hk Hx Hv Hso Hsx.
  pose proof (ref_part_ok xr_cmp) as PO. pose proof (rev_part_ok xr_cmp) as PR.
  set (srow j := self_row sdist metric (rows_at Xall v) j).
  set (row i := map (dq sdist metric s Xall X i) (seq 0 (length v))).
  set (o j := map (fun l => XFin (dv j l)) (but j (length v))).
  assert (P : forall j, j < length v -> Permutation (srow j) (XFin 0 :: o j)).
  { intros j Hj. unfold srow. rewrite (self_row_perm sdist metric (rows_at Xall v) j Hj). cbn [rows_at nrow]. apply perm_skip.
    unfold o. change (other_row sdist metric (rows_at Xall v) j) with (map (dvv sdist metric s Xall j) (but j (length v))). erewrite map_ext; [reflexivity|]. intros l. apply Hv. }
  assert (Hof : forall j x, In x (o j) -> exists r, x = XFin r /\ (0 <= r)%R).
  { intros j x Hin. apply in_map_iff in Hin as (l & <- & _). eexists. split; [reflexivity|]. apply Hv. }
  assert (Lo : forall j, j < length v -> length (o j) = length v - 1) by (intros; unfold o; rewrite map_length; now apply but_length).
  assert (Ls : forall j, length (srow j) = length v) by (intros; unfold srow; apply self_row_length).
  assert (Lr : forall i, length (row i) = length v) by (intros; unfold row; now rewrite map_length, seq_length).
  assert (FM : forall l, map fin_of (map XFin l) = l) by (intros l; rewrite map_map; apply map_id).
  assert (Lk : forall a b c, k_smallest a b (map XFin c) -> length c = b) by (intros a b c (L & _); now rewrite map_length in L).
  (* the value for a partition whose first element is known *)
  assert (VAL : forall part, part_ok part -> exists R,
     ls_fixed xsum sdist vexp part true metric k s ns Xall X = Ok R /\
     forall i j, i < nrow X -> j < length v -> forall x0, vat (part (srow j) [k]) 0 = XFin x0 ->
       at2 R i j = ndiv (XFin (dx i j)) (nsqrt (XFin (rmean (sx i) * (rmean (so j) - x0 / INR k))))).
  { intros part Hp.
    pose proof (ls_run part true xsum sdist vexp metric k s ns Xall X HI) as E. cbv zeta in E. fold v in E. rewrite E.
    destruct (Nat.ltb_spec k (length v)); [|lia].
    eexists. split; [reflexivity|].
    intros i j Hi Hj x0' E0'. cbn [at2]. unfold M_Approx.ls_cell. rewrite !nth_map_seq by assumption. fold (row i). fold (srow j).
    rewrite (Hx i j).
    destruct (nicdm_sum (o j) (srow j) (Hof j) (P j Hj) (part (srow j) [k]) k (map XFin (so j))
       (Hp (srow j) [k] ltac:(intros z [<-|[]]; rewrite Ls; lia)) ltac:(rewrite Lo by exact Hj; lia) (Hso j Hj)) as (x0 & E0 & H0 & _ & Fq & Lq & Eq).
    assert (x0 = x0') by congruence. subst x0'.
    assert (Kx : k_smallest (row i) k (firstn k (part (row i) [k - 1]))).
    { assert (KK := part_one_smallest xr_cmp (row i) (part (row i) [k - 1]) (k - 1) (Hp (row i) [k - 1] ltac:(intros z [<-|[]]; rewrite Lr; lia)) ltac:(rewrite Lr; lia)).
      replace (S (k - 1)) with k in KK by lia. exact KK. }
    assert (Frow : forall x, In x (row i) -> xisfin x = true).
    { intros x Hin. apply in_map_iff in Hin as (l & <- & _). now rewrite Hx. }
    assert (Erow : row i = map (fun l => XFin (dx i l)) (seq 0 (length v))) by (apply map_ext; intros; apply Hx).
    pose proof (k_smallest_sum (row i) k _ (map XFin (sx i)) Frow Kx ltac:(rewrite Erow; now apply Hsx)) as Ex.
    assert (Fx : forall x, In x (firstn k (part (row i) [k - 1])) -> xisfin x = true).
    { intros x Hin. apply Frow. eapply k_smallest_incl; eauto. }
    assert (Lx : length (firstn k (part (row i) [k - 1])) = k) by (apply (proj1 Kx)).
    unfold slice at 1. rewrite Nat.sub_0_r. cbn [skipn].
    assert (PK : INR k <> 0%R) by (apply not_0_INR; lia).
    assert (M1 : vmean_ xsum (firstn k (part (row i) [k - 1])) = XFin (rmean (sx i))).
    { rewrite (fin_list _ Fx). rewrite vmean_xr by (intros C; apply (f_equal (@length R)) in C; rewrite map_length, Lx in C; cbn in C; lia).
      f_equal. unfold rmean. rewrite Ex, FM, map_length, Lx. rewrite (Lk _ _ _ (Hsx i Hi)). reflexivity. }
    assert (M2 : vmean_ xsum (slice (part (srow j) [k]) 1 (k + 1)) = XFin (rmean (so j) - x0 / INR k)).
    { rewrite (fin_list _ Fq). rewrite vmean_xr by (intros C; apply (f_equal (@length R)) in C; rewrite map_length, Lq in C; cbn in C; lia).
      f_equal. unfold rmean. rewrite Eq, FM, map_length, Lq. rewrite (Lk _ _ _ (Hso j Hj)). field. exact PK. }
    rewrite M1, M2. reflexivity. }
  destruct (VAL _ PO) as (R & ER & HR). destruct (VAL _ PR) as (R' & ER' & HR').
  exists ref_part, rev_part, R, R', (fun j => fin_of (vat (rev_part (srow j) [k]) 0)).
  split; [exact PO|]. split; [exact PR|]. split; [exact ER|]. split; [exact ER'|].
  assert (W : forall j, j < length v -> vat (rev_part (srow j) [k]) 0 = XFin (fin_of (vat (rev_part (srow j) [k]) 0)) /\
            has_rank (o j) (k - 1) (vat (rev_part (srow j) [k]) 0)).
  { intros j Hj. destruct (rev_first (o j) (srow j) (Hof j) (P j Hj) k) as (w & Ew & Hw); [rewrite Lo by exact Hj; lia|].
    split; [|now rewrite Ew].
    assert (Iw : In (vat (rev_part (srow j) [k]) 0) (srow j)).
    { assert (Hpp := PR (srow j) [k] ltac:(intros z [<-|[]]; rewrite Ls; lia)). destruct Hpp as (Pp & _).
      eapply Permutation_in; [exact Pp|]. apply nth_In. rewrite (Permutation_length Pp), Ls. lia. }
    destruct (row_fin (o j) (srow j) (Hof j) (P j Hj) _ Iw) as (r & -> & _). reflexivity. }
  split.
  - intros j Hj. destruct (W j Hj) as (W1 & W2). rewrite <- W1. exact W2.
  - intros i j Hi Hj. split.
    + rewrite (HR i j Hi Hj 0%R); [|apply (ref_first (o j) (srow j) (Hof j) (P j Hj))].
      do 4 f_equal. unfold Rdiv. lra.
    + apply (HR' i j Hi Hj). apply (W j Hj).
Qed.

(** four objects on a line at 0, 1, 3, 7, k = 2 *)
Example ex_C70 :
  let X := Arr2 4 1 (fun i _ => XFin (match i with 0 => 0 | 1 => 1 | 2 => 3 | _ => 7 end)) in
  let sd (_ : string) (_ : nat) (u w : nat -> xr) :=
    match u 0, w 0 with XFin a, XFin b => XFin ((a - b) * (a - b)) | _, _ => XNaN end in
  ls_inputs "sqeuclidean" 2 SNone 0 X X /\ 2 <= 2 < length (vantage SNone (nrow X)) /\
  (forall i l, exists r, dq sd "sqeuclidean" SNone X X i l = XFin r /\ (0 <= r)%R) /\
  k_smallest (map (dvv sd "sqeuclidean" SNone X 0) (but 0 4)) 2 (map XFin [1; 9]%R).
Proof.
  intros X sd.
  assert (C : clean X).
  { split; [cbn; lia|]. split; [cbn; lia|]. intros. reflexivity. }
  split; [|split; [|split]].
  - refine (conj _ (conj C (conj C (conj eq_refl (conj (or_introl eq_refl) (conj _ _)))))); [lia|intros ind E; discriminate|cbn; lia].
  - cbn. lia.
  - intros i l. eexists. split; [reflexivity|]. apply Rle_0_sqr.
  - unfold but. cbn [seq filter Nat.eqb negb map]. split; [reflexivity|]. exists [XFin 49]. unfold dvv, sd. cbn [at2 X vantage nrow seq nth].
    replace ((0 - 1) * (0 - 1))%R with 1%R by lra. replace ((0 - 3) * (0 - 3))%R with 9%R by lra. replace ((0 - 7) * (0 - 7))%R with 49%R by lra.
    split; [reflexivity|]. intros x y [<-|[<-|[]]] [<-|[]]; cbn; destruct (Rlt_dec _ _); try reflexivity; lra.
Qed.

Print Assumptions C70_ls_value.
Print Assumptions C70_unknown_metric.
Print Assumptions C70_ls_range.
Print Assumptions C70_nicdm_value.
Print Assumptions C70_nicdm_depends_on_partition.
