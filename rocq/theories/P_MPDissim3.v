(** mp_dissim over the reals: edges and values. *)
From Coq Require Import String.
From Coq Require Import ZArith Reals Lra Lia Psatz List Arith Bool Permutation Sorting.
From Verif Require Import Py Num NumT NumPow Arr Sort S_Centering M_SNN M_MPDissim S_MPDissim P_Vec P_MPDissim P_MPDissim2.
Import ListNotations.
Local Open Scope R_scope.

Lemma powR_le a b g : 0 <= a <= b -> 0 < g -> powR a g <= powR b g.
Proof.
  intros [H K] G. unfold powR. destruct (Req_EM_T g 0); [lra|]. destruct (Req_EM_T a 0).
  - destruct (Req_EM_T b 0); [lra|]. left. apply exp_pos.
  - destruct (Req_EM_T b 0); [lra|]. apply Rle_Rpower_l; lra.
Qed.
Lemma powR_ge0 a g : 0 <= powR a g.
Proof. unfold powR. destruct (Req_EM_T g 0); [lra|]. destruct (Req_EM_T a 0); [lra|]. left. apply exp_pos. Qed.
Lemma powR_gt0 a g : 0 < a -> 0 < powR a g.
Proof. intros. unfold powR. destruct (Req_EM_T g 0); [lra|]. destruct (Req_EM_T a 0); [lra|]. apply exp_pos. Qed.
Lemma powR_root a g : 0 <= a -> 0 < g -> powR (powR a g) (1 / g) = a.
Proof.
  intros Ha Hg. assert (1 / g <> 0). { unfold Rdiv. rewrite Rmult_1_l. apply Rinv_neq_0_compat. lra. }
  unfold powR. destruct (Req_EM_T g 0); [lra|]. destruct (Req_EM_T (1 / g) 0); [contradiction|].
  destruct (Req_EM_T a 0) as [->|]; [destruct (Req_EM_T 0 0); [reflexivity|lra]|].
  destruct (Req_EM_T (Rpower a g) 0) as [Z|_]; [pose proof (exp_pos (g * ln a)); unfold Rpower in Z; lra|].
  rewrite Rpower_mult. replace (g * (1 / g)) with 1 by (field; lra). apply Rpower_1. lra.
Qed.
Lemma powR_prod a b g : 0 <= a -> 0 <= b -> powR (a * b) g = powR a g * powR b g.
Proof.
  intros Ha Hb. unfold powR. destruct (Req_EM_T g 0); [lra|].
  destruct (Req_EM_T a 0) as [->|], (Req_EM_T b 0) as [->|]; rewrite ?Rmult_0_l, ?Rmult_0_r;
    try (destruct (Req_EM_T 0 0); [reflexivity|lra]).
  destruct (Req_EM_T (a * b) 0) as [Z|_]; [apply Rmult_integral in Z; lra|]. symmetry. apply Rpower_mult_distr; lra.
Qed.
Lemma xpow_pos a g : 0 <= a -> 0 < g -> xpow (XFin a) (XFin g) = XFin (powR a g).
Proof.
  intros Ha Hg. unfold xpow, powR. destruct (Req_EM_T g 0); [lra|]. destruct (Rlt_dec a 0); [lra|].
  destruct (Req_EM_T a 0); [|reflexivity]. destruct (Rlt_dec g 0); [lra|reflexivity].
Qed.

(** ** cells *)
Lemma cellv_R seps v : cellv (map XFin seps) (XFin v) = cellR seps v.
Proof.
  unfold cellv, cellR. induction seps as [|s l IH]; [reflexivity|]. cbn [map filter].
  change (nlt (XFin v) (XFin s)) with (if Rlt_dec v s then true else false).
  destruct (Rlt_dec v s), (Rle_dec s v); try lra; cbn [negb length]; rewrite <- IH; reflexivity.
Qed.
Lemma massv_R seps col u v : massv (map XFin seps) (map XFin col) (Nat.min (cellR seps u) (cellR seps v)) (Nat.max (cellR seps u) (cellR seps v)) = massR seps col u v.
Proof.
  unfold massv, massR. induction col as [|w l IH]; [reflexivity|]. cbn [map filter]. rewrite cellv_R.
  destruct (_ && _); cbn [length]; rewrite IH; reflexivity.
Qed.

(** real edges *)
Definition redges_ok (lo : R) (seps : list R) (hi : R) : Prop :=
  lo <= hi /\ (forall s, In s seps -> lo <= s <= hi) /\
  forall a b, (a < b)%nat -> (b < length seps)%nat -> nth a seps 0 <= nth b seps 0.
Lemma nth_XFin l a : (a < length l)%nat -> nth a (map XFin l) XNaN = XFin (nth a l 0).
Proof. intros H. rewrite (nth_indep _ XNaN (XFin 0)) by (rewrite map_length; lia). apply map_nth. Qed.
Lemma xle_fin a b : xle (XFin a) (XFin b) = true <-> a <= b.
Proof. cbn. destruct (Rle_dec a b); split; auto; intros; try discriminate; contradiction. Qed.

Lemma redges lo seps hi : redges_ok lo seps hi -> edges_ok (XFin lo) (map XFin seps) (XFin hi).
Proof.
  intros (H0 & H1 & H2). constructor.
  - intros s [<-|Hs]; [reflexivity|]. apply in_app_or in Hs as [Hs|[<-|[]]]; [|reflexivity]. apply in_map_iff in Hs as (x & <- & _). reflexivity.
  - intros s Hs. apply in_app_or in Hs as [Hs|[<-|[]]]; [|apply xle_fin; exact H0]. apply in_map_iff in Hs as (x & <- & Hx). apply xle_fin, H1, Hx.
  - intros s Hs. apply in_map_iff in Hs as (x & <- & Hx). apply xle_fin, H1, Hx.
  - intros a b Hab Hb. rewrite map_length in Hb. change (@nnan xr Num_xr) with XNaN. rewrite !nth_XFin by lia. apply xle_fin. apply H2; assumption.
Qed.

(** ** the value of a cell of the result *)
Lemma fold_fin {A} (f : A -> xr) (g : A -> R) l r : (forall x, In x l -> f x = XFin (g x)) ->
  fold_left (fun acc i => nadd acc (f i)) l (XFin r) = XFin (r + rsum (map g l)).
Proof.
  revert r. induction l as [|x l IH]; intros r H; cbn [fold_left map].
  - cbn. f_equal. lra.
  - rewrite (H x) by (now left). change (nadd (XFin r) (XFin (g x))) with (XFin (r + g x)). rewrite IH by (intros; apply H; now right).
    f_equal. cbn [rsum fold_right]. unfold rsum. cbn. lra.
Qed.

Lemma nofnat_x n : nofnat (V:=xr) n = XFin (INR n).
Proof. unfold nofnat. cbn. rewrite <- INR_IZR_INZ. reflexivity. Qed.

Lemma xdiv_nz a b : b <> 0 -> ndiv (XFin a) (XFin b) = XFin (a / b).
Proof. intros H. cbn. destruct (Req_EM_T b 0); [contradiction|reflexivity]. Qed.

Definition eff_p (p : R) : R := if Req_EM_T p 0 then 2 else p.
Lemma eff_p_pos p : 0 <= p -> 0 < eff_p p.
Proof. unfold eff_p. destruct (Req_EM_T p 0); lra. Qed.
Lemma mpd_p_x p : mpd_p (XFin p) = XFin (eff_p p).
Proof. unfold mpd_p, eff_p. cbn. destruct (Req_EM_T p 0); reflexivity. Qed.

Lemma coll_rmat n d y f : coll (rmat n d y) f = map XFin (map (fun j => y j f) (seq 0 n)).
Proof. unfold coll. rewrite map_map. reflexivity. Qed.

Lemma final_value nx ny d x y p nb E lo hi (seps : nat -> list R) i j :
  0 <= p -> (0 < d)%nat -> (i < nx)%nat -> (j < ny)%nat -> (0 < nb)%nat ->
  (forall f, (f < d)%nat -> E f = XFin (lo f) :: map XFin (seps f) ++ [XFin (hi f)] /\ length (seps f) = (nb - 1)%nat /\
     redges_ok (lo f) (seps f) (hi f) /\ forall w, In w (map (fun j => y j f) (seq 0 ny)) -> lo f <= w <= hi f) ->
  mpd_final xpow (rmat nx d x) (rmat ny d y) (XFin p) nb E i j =
  XFin (mp_formula d (nx + ny) (eff_p p) (fun f => massR (seps f) (map (fun j => y j f) (seq 0 ny)) (x i f) (y j f))).
Proof.
  intros Hp Hd Hi Hj Hnb HE. unfold mpd_final, mpd_cell. rewrite mpd_p_x. cbn [ncol nrow rmat].
  pose proof (eff_p_pos p Hp) as P. set (g := eff_p p) in *.
  assert (HD : INR d <> 0) by (apply not_0_INR; lia). assert (HT : INR (nx + ny) <> 0) by (apply not_0_INR; lia).
  assert (HTp : 0 < INR (nx + ny)) by (apply lt_0_INR; lia). assert (HDp : 0 < INR d) by (apply lt_0_INR; lia).
  set (m := fun f => massR (seps f) (map (fun j => y j f) (seq 0 ny)) (x i f) (y j f)).
  change (n0 (V:=xr)) with (XFin 0).
  rewrite (fold_fin _ (fun f => powR (INR (m f) / INR (nx + ny)) g)).
  2:{ intros f Hf. apply in_seq in Hf. destruct (HE f ltac:(lia)) as (Ef & Lf & Rf & Cf).
      rewrite !nofnat_x, xdiv_nz by assumption. rewrite xpow_pos; [|apply Rle_mult_inv_pos; [apply pos_INR|assumption]|assumption].
      f_equal. f_equal. f_equal. f_equal. cbn [at2 rmat]. rewrite Ef. replace nb with (S (length (map XFin (seps f)))) by (rewrite map_length; lia).
      pose proof (redges _ _ _ Rf) as RE. rewrite !(bin_cell xr_cmp _ _ _ _ RE) by reflexivity. rewrite !cellv_R. rewrite coll_rmat.
      assert (C : forall w, In w (map XFin (map (fun j => y j f) (seq 0 ny))) -> nle (XFin (lo f)) w = true /\ nle w (XFin (hi f)) = true).
      { intros w Hw. apply in_map_iff in Hw as (r & <- & Hr). destruct (Cf r Hr). split; apply xle_fin; assumption. }
      unfold m. rewrite <- massv_R. unfold R_of.
      assert (B : forall v, (cellR (seps f) v <= length (map XFin (seps f)))%nat) by (intros v; rewrite <- cellv_R; apply filter_len_le).
      destruct (Nat.leb_spec (cellR (seps f) (x i f)) (cellR (seps f) (y j f))).
      - rewrite (cum_mass xr_cmp _ _ _ _ _ _ RE C) by (auto; lia). rewrite Nat.min_l, Nat.max_r by lia. reflexivity.
      - rewrite (cum_mass xr_cmp _ _ _ _ _ _ RE C) by (auto; lia). rewrite Nat.min_r, Nat.max_l by lia. reflexivity. }
  rewrite nofnat_x, xdiv_nz by assumption. change (n1 (V:=xr)) with (XFin 1). rewrite xdiv_nz by lra.
  rewrite Rplus_0_l. unfold mp_formula. apply xpow_pos.
  - apply Rle_mult_inv_pos; [|assumption]. apply rsum_nonneg. intros a Ha. apply in_map_iff in Ha as (f & <- & _). apply powR_ge0.
  - unfold Rdiv. rewrite Rmult_1_l. apply Rinv_0_lt_compat. exact P.
Qed.

(** ** edges of equal width *)
Lemma col_min_x a l : exists lo, col_min (XFin a) (map XFin l) = XFin lo /\ In lo (a :: l) /\ forall v, In v (a :: l) -> lo <= v.
Proof.
  unfold col_min. revert a. induction l as [|b l IH]; intros a; cbn [map fold_left].
  - exists a. split; [reflexivity|]. split; [now left|]. intros v [->|[]]. lra.
  - change (nlt (XFin b) (XFin a)) with (if Rlt_dec b a then true else false). destruct (Rlt_dec b a).
    + destruct (IH b) as (lo & E & I & M). exists lo. split; [exact E|]. split; [right; exact I|].
      intros v [<-|Hv]; [|auto]. pose proof (M b (or_introl eq_refl)). lra.
    + destruct (IH a) as (lo & E & I & M). exists lo. split; [exact E|]. split; [destruct I; [now left|right; now right]|].
      intros v [<-|[<-|Hv]]; [apply M; now left| |apply M; now right]. pose proof (M a (or_introl eq_refl)). lra.
Qed.
Lemma col_max_x a l : exists hi, col_max (XFin a) (map XFin l) = XFin hi /\ In hi (a :: l) /\ forall v, In v (a :: l) -> v <= hi.
Proof.
  unfold col_max. revert a. induction l as [|b l IH]; intros a; cbn [map fold_left].
  - exists a. split; [reflexivity|]. split; [now left|]. intros v [->|[]]. lra.
  - change (nlt (XFin a) (XFin b)) with (if Rlt_dec a b then true else false). destruct (Rlt_dec a b).
    + destruct (IH b) as (lo & E & I & M). exists lo. split; [exact E|]. split; [right; exact I|].
      intros v [<-|Hv]; [|auto]. pose proof (M b (or_introl eq_refl)). lra.
    + destruct (IH a) as (lo & E & I & M). exists lo. split; [exact E|]. split; [destruct I; [now left|right; now right]|].
      intros v [<-|[<-|Hv]]; [apply M; now left| |apply M; now right]. pose proof (M a (or_introl eq_refl)). lra.
Qed.

Definition lin_seps (n : nat) (lo hi : R) : list R := map (fun k => lo + INR k * ((hi - lo) / INR n)) (seq 1 (n - 1)).
Lemma lin_edges_x n lo hi : (0 < n)%nat -> lin_edges n (XFin lo) (XFin hi) = XFin lo :: map XFin (lin_seps n lo hi) ++ [XFin hi].
Proof.
  intros Hn. assert (INR n <> 0) by (apply not_0_INR; lia). unfold lin_edges, lin_seps. replace n with (S (n - 1)) at 1 by lia. cbn [seq map app].
  change (nsub (XFin hi) (XFin lo)) with (XFin (hi - lo)). rewrite !nofnat_x, xdiv_nz by assumption. f_equal.
  - cbn [nmul nadd Num_xr xmul xadd]. f_equal. cbn. lra.
  - f_equal. rewrite map_map. apply map_ext_in. intros k _. rewrite nofnat_x. cbn [nmul nadd Num_xr xmul xadd]. f_equal. lra.
Qed.
Lemma lin_ok n lo hi : (0 < n)%nat -> lo <= hi -> redges_ok lo (lin_seps n lo hi) hi /\ length (lin_seps n lo hi) = (n - 1)%nat.
Proof.
  intros Hn Hl. assert (P : 0 < INR n) by (apply lt_0_INR; lia).
  assert (St : 0 <= (hi - lo) / INR n) by (apply Rle_mult_inv_pos; lra).
  unfold lin_seps. split; [|rewrite map_length, seq_length; reflexivity].
  split; [exact Hl|]. split.
  - intros s Hs. apply in_map_iff in Hs as (k & <- & Hk). apply in_seq in Hk.
    pose proof (pos_INR k). split; [nra|]. assert (INR k <= INR n) by (apply le_INR; lia).
    assert (INR k * ((hi - lo) / INR n) <= INR n * ((hi - lo) / INR n)) by (apply Rmult_le_compat_r; lra).
    assert (INR n * ((hi - lo) / INR n) = hi - lo) by (field; lra). lra.
  - intros a b Hab Hb. rewrite map_length, seq_length in Hb.
    set (h := fun k => lo + INR k * ((hi - lo) / INR n)).
    rewrite (nth_indep _ 0 (h 0%nat)) by (rewrite map_length, seq_length; lia). rewrite (nth_indep (map h _) 0 (h 0%nat)) by (rewrite map_length, seq_length; lia).
    rewrite !(map_nth h), !seq_nth by lia. unfold h. assert (INR (1 + a) <= INR (1 + b)) by (apply le_INR; lia). nra.
Qed.

Lemma half_x : mpd_half (V:=xr) = XFin (1 / 2).
Proof. unfold mpd_half. cbn. destruct (Req_EM_T 2 0); [lra|]. reflexivity. Qed.

Lemma range_edges_x n col : (0 < n)%nat -> col <> [] -> exists lo hi seps, range_edges n (map XFin col) = Ok (XFin lo :: map XFin seps ++ [XFin hi]) /\
  length seps = (n - 1)%nat /\ redges_ok lo seps hi /\ (forall w, In w col -> lo <= w <= hi) /\ equal_width n col seps.
Proof.
  intros Hn Hc. destruct col as [|a l]; [contradiction|]. unfold range_edges. cbn [map].
  assert (F : existsb (fun v => negb (nisfin v)) (XFin a :: map XFin l) = false).
  { change (XFin a :: map XFin l) with (map XFin (a :: l)). generalize (a :: l). induction l0; [reflexivity|]. cbn. exact IHl0. }
  rewrite F. cbn [guard bind]. destruct (col_min_x a l) as (lo & -> & Ilo & Mlo). destruct (col_max_x a l) as (hi & -> & Ihi & Mhi).
  change (neq (XFin lo) (XFin hi)) with (if Req_EM_T lo hi then true else false). destruct (Req_EM_T lo hi) as [Eq|Ne].
  - rewrite half_x. change (nsub (XFin lo) (XFin (1 / 2))) with (XFin (lo - 1 / 2)). change (nadd (XFin hi) (XFin (1 / 2))) with (XFin (hi + 1 / 2)).
    rewrite lin_edges_x by assumption. exists (lo - 1 / 2), (hi + 1 / 2), (lin_seps n (lo - 1 / 2) (hi + 1 / 2)). split; [reflexivity|].
    destruct (lin_ok n (lo - 1 / 2) (hi + 1 / 2) Hn ltac:(lra)) as [A B]. split; [exact B|]. split; [exact A|].
    split; [intros w Hw; pose proof (Mlo w Hw); pose proof (Mhi w Hw); lra|].
    exists lo, hi. repeat split; auto. unfold lin_seps. apply map_ext_in. intros k _. destruct (Req_EM_T lo hi); [|contradiction].
    replace (hi + 1 / 2 - (lo - 1 / 2)) with 1 by lra. unfold Rdiv. lra.
  - rewrite lin_edges_x by assumption. exists lo, hi, (lin_seps n lo hi). split; [reflexivity|].
    assert (L : lo <= hi) by (apply Mlo; exact Ihi).
    destruct (lin_ok n lo hi Hn L) as [A B]. split; [exact B|]. split; [exact A|]. split; [intros w Hw; split; auto|].
    exists lo, hi. repeat split; auto. unfold lin_seps. apply map_ext_in. intros k _. destruct (Req_EM_T lo hi); [contradiction|]. reflexivity.
Qed.

(** the separators of equal width are unique *)
Lemma equal_width_unique n col s1 s2 : equal_width n col s1 -> equal_width n col s2 -> s1 = s2.
Proof.
  intros (lo & hi & L & H & B & ->) (lo' & hi' & L' & H' & B' & ->).
  assert (lo = lo') by (apply Rle_antisym; [apply B|apply B']; assumption).
  assert (hi = hi') by (apply Rle_antisym; [apply B'|apply B]; assumption). subst. reflexivity.
Qed.

(** ** order statistics are unique *)
Definition rank_at (l : list R) (k : nat) : Prop :=
  (k < length l)%nat /\ (forall a, (a < k)%nat -> nth a l 0 <= nth k l 0) /\
  (forall a, (k < a)%nat -> (a < length l)%nat -> nth k l 0 <= nth a l 0).
Definition cle (t : R) (l : list R) : nat := length (filter (fun v => if Rle_dec v t then true else false) l).
Definition clt (t : R) (l : list R) : nat := length (filter (fun v => if Rlt_dec v t then true else false) l).

Lemma split_at (l : list R) k : (k < length l)%nat -> l = firstn k l ++ nth k l 0 :: skipn (S k) l.
Proof.
  revert k. induction l as [|x l IH]; intros [|k] H; cbn in *; try lia; [reflexivity|]. f_equal. apply IH. lia.
Qed.
Lemma rank_le l k : rank_at l k -> (S k <= cle (nth k l 0%R) l)%nat.
Proof.
  intros (H & A & B). replace (cle (nth k l 0) l) with (cle (nth k l 0) (firstn k l ++ nth k l 0 :: skipn (S k) l)) by (f_equal; symmetry; apply split_at; exact H).
  unfold cle. rewrite filter_length_app. cbn [filter].
  destruct (Rle_dec (nth k l 0) (nth k l 0)); [|lra]. cbn [length]. rewrite filter_all; [rewrite firstn_length; lia|].
  intros v Hv. destruct (In_nth _ _ 0 Hv) as (a & Ha & <-). rewrite firstn_length in Ha.
  assert (E : nth a (firstn k l) 0 = nth a l 0). { clear - Ha. revert a k Ha. induction l as [|x l IH]; intros a [|k] Ha; cbn in *; try lia; destruct a; auto. apply IH. lia. }
  rewrite E. destruct (Rle_dec (nth a l 0) (nth k l 0)) as [|Hn]; [reflexivity|]. exfalso. apply Hn. apply A. lia.
Qed.
Lemma rank_lt l k : rank_at l k -> (clt (nth k l 0%R) l <= k)%nat.
Proof.
  intros (H & A & B). replace (clt (nth k l 0) l) with (clt (nth k l 0) (firstn k l ++ nth k l 0 :: skipn (S k) l)) by (f_equal; symmetry; apply split_at; exact H).
  unfold clt. rewrite filter_length_app. cbn [filter].
  destruct (Rlt_dec (nth k l 0) (nth k l 0)); [lra|]. rewrite (filter_none _ (skipn (S k) l)).
  - pose proof (filter_len_le (fun v => if Rlt_dec v (nth k l 0) then true else false) (firstn k l)) as F. rewrite firstn_length in F. lia.
  - intros v Hv. destruct (In_nth _ _ 0 Hv) as (a & Ha & <-). rewrite skipn_length in Ha.
    assert (E : nth a (skipn (S k) l) 0 = nth (S k + a) l 0).
    { clear. generalize (S k). intros m. revert m a. induction l as [|x l IH]; intros [|m] a; cbn [skipn Nat.add nth]; try reflexivity; [destruct a; reflexivity|apply IH]. }
    rewrite E. destruct (Rlt_dec (nth (S k + a) l 0) (nth k l 0)) as [L|]; [|reflexivity]. exfalso.
    pose proof (B (S k + a)%nat ltac:(lia) ltac:(lia)). lra.
Qed.
Lemma count_perm (P : R -> bool) l l' : Permutation l l' -> length (filter P l) = length (filter P l').
Proof.
  induction 1 as [|x l l' HP IH|x y l|l l' l'' H1 IH1 H2 IH2]; cbn.
  - reflexivity.
  - destruct (P x); cbn; congruence.
  - destruct (P x), (P y); reflexivity.
  - congruence.
Qed.
Lemma cle_clt l s t : s < t -> (cle s l <= clt t l)%nat.
Proof. intros H. unfold cle, clt. induction l as [|v l IH]; [cbn; lia|]. cbn. destruct (Rle_dec v s), (Rlt_dec v t); cbn; try lia; lra. Qed.
Lemma rank_unique l l' k : Permutation l l' -> rank_at l k -> rank_at l' k -> nth k l 0 = nth k l' 0.
Proof.
  intros HP R1 R2. pose proof (rank_le l k R1) as A1. pose proof (rank_lt l k R1) as A2. pose proof (rank_le l' k R2) as B1. pose proof (rank_lt l' k R2) as B2.
  assert (C1 : forall t, cle t l = cle t l') by (intros; apply count_perm; exact HP).
  assert (C2 : forall t, clt t l = clt t l') by (intros; apply count_perm; exact HP).
  destruct (Rtotal_order (nth k l 0) (nth k l' 0)) as [L|[E|L]]; [|exact E|].
  - pose proof (cle_clt l _ _ L). rewrite <- C2 in B2. lia.
  - apply Rgt_lt in L. pose proof (cle_clt l' _ _ L). rewrite C2 in A2. lia.
Qed.
Lemma sorted_le T a b : StronglySorted Rle T -> (a <= b)%nat -> (b < length T)%nat -> nth a T 0 <= nth b T 0.
Proof.
  intros S. revert a b. induction S as [|x l S IH F]; intros a b Hab Hb; [cbn in Hb; lia|].
  destruct b as [|b]; [assert (a = 0)%nat by lia; subst; lra|]. destruct a as [|a]; cbn.
  - rewrite Forall_forall in F. apply F. apply nth_In. cbn in Hb. lia.
  - apply IH; cbn in Hb; lia.
Qed.
Lemma sorted_rank T k : StronglySorted Rle T -> (k < length T)%nat -> rank_at T k.
Proof. intros S H. split; [exact H|]. split; intros; apply sorted_le; auto; lia. Qed.

(** ** edges of equal mass *)
Lemma mass_edges_x part (PO : part_ok part) n s col : (0 < n)%nat -> (0 < s)%nat -> col <> [] ->
  length (mpd_kth (length col) s) = S n -> exists lo hi seps,
  mass_edges part (mpd_kth (length col) s) (map XFin col) = Ok (XFin lo :: map XFin seps ++ [XFin hi]) /\
  length seps = (n - 1)%nat /\ redges_ok lo seps hi /\ (forall w, In w col -> lo <= w <= hi) /\
  forall T, Permutation T col -> StronglySorted Rle T -> seps = map (fun k => nth (k * s) T 0) (seq 1 (n - 1)).
Proof.
  intros Hn Hs Hc HL. assert (LC : length (map XFin col) = length col) by apply map_length.
  assert (Hpos : (0 < length col)%nat) by (destruct col; [contradiction|cbn; lia]).
  destruct (mass_edges_ok part PO (map XFin col) s) as (q & E & IP); [lia|assumption|]. rewrite LC in *.
  destruct n as [|m]; [lia|]. replace (S m - 1)%nat with m by lia.
  pose proof (mass_shape xr_cmp (map XFin col) s m q) as MS. rewrite LC in MS. specialize (MS Hpos Hs).
  assert (NN : forall v, In v (map XFin col) -> nisnan v = false) by (intros v Hv; apply in_map_iff in Hv as (r & <- & _); reflexivity).
  specialize (MS NN HL IP). cbn zeta in MS. destruct MS as (ET & [EN ELO EHI ES] & COV & KB).
  destruct IP as [HP HK]. destruct (Permutation_map_inv XFin col HP) as (ql & Eq & Pq). subst q.
  assert (Lq : length ql = length col) by (symmetry; apply Permutation_length; exact Pq).
  change (@nnan xr Num_xr) with XNaN in *.
  exists (nth 0 ql 0), (nth (length col - 1) ql 0), (map (fun k => nth (k * s) ql 0) (seq 1 m)).
  assert (SE : map (fun k => nth (k * s) (map XFin ql) XNaN) (seq 1 m) = map XFin (map (fun k => nth (k * s) ql 0) (seq 1 m))).
  { rewrite map_map. apply map_ext_in. intros k Hk. apply in_seq in Hk. apply nth_XFin. rewrite Lq. apply KB. lia. }
  rewrite SE in *. rewrite !nth_XFin in * by lia. rewrite E, ET. split; [reflexivity|].
  split; [rewrite map_length, seq_length; reflexivity|]. split; [|split].
  - split; [apply xle_fin; apply ELO; apply in_or_app; right; now left|]. split.
    + intros x Hx. split; apply xle_fin; [apply ELO; apply in_or_app; left|apply EHI]; apply in_map; exact Hx.
    + intros a b Hab Hb. specialize (ES a b Hab). rewrite map_length in ES. specialize (ES Hb). rewrite !nth_XFin in ES by lia. apply xle_fin. exact ES.
  - intros w Hw. destruct (COV (XFin w) (in_map XFin _ _ Hw)) as [A B]. split; apply xle_fin; assumption.
  - intros T PT ST. apply map_ext_in. intros k Hk. apply in_seq in Hk. pose proof (KB k ltac:(lia)) as Hks.
    apply rank_unique; [transitivity col; [symmetry; exact Pq|symmetry; exact PT]| |].
    + split; [lia|]. assert (IK : In (k * s)%nat (mpd_kth (length col) s)).
      { rewrite (kth_shape _ _ _ Hpos Hs HL). right. apply in_or_app. left. apply in_map_iff. exists k. split; [reflexivity|apply in_seq; lia]. }
      assert (SL : forall a b, sle (XFin a) (XFin b) = true -> a <= b).
      { intros a b H. unfold sle in H. cbn in H. destruct (Rle_dec a b); [assumption|discriminate]. }
      split; intros a Ha; [destruct (HK _ IK a) as [X _]|intros Hl; destruct (HK _ IK a) as [_ X]].
      * specialize (X Ha). unfold vat in X. change (@nnan xr Num_xr) with XNaN in X. rewrite !nth_XFin in X by lia. apply SL. exact X.
      * rewrite map_length in X. specialize (X Ha ltac:(lia)). unfold vat in X. change (@nnan xr Num_xr) with XNaN in X. rewrite !nth_XFin in X by lia. apply SL. exact X.
    + apply sorted_rank; [exact ST|]. rewrite (Permutation_length PT). exact Hks.
Qed.
