(** Proofs about approximate.py, part 1: finite distances and the sparse matrix. *)
From Coq Require Import String.
From Coq Require Import ZArith List Arith Lia Bool Permutation Reals Lra.
From Flocq Require Import Core BinarySingleNaN.
From Verif Require Import Py Num NumT Arr Sort P_F64 M_Approx.
Import ListNotations.
Local Open Scope nat_scope.

(** ** minimum and maximum *)
Section MinMax.
  Context {V : Type} {N : Num V} {toX : V -> xr} (CL : CmpLaws V N toX).

  Lemma vmin_in (x : V) l : In (vmin x l) (x :: l).
  Proof.
    revert x. induction l as [|y l IH]; intros x; cbn; [auto|].
    change (fold_left _ l ?z) with (vmin z l). destruct (IH (if nlt y x then y else x)) as [E|E].
    - rewrite <- E. destruct (nlt y x); auto.
    - auto.
  Qed.
  Lemma vmax_in (x : V) l : In (vmax x l) (x :: l).
  Proof.
    revert x. induction l as [|y l IH]; intros x; cbn; [auto|].
    change (fold_left _ l ?z) with (vmax z l). destruct (IH (if nlt x y then y else x)) as [E|E].
    - rewrite <- E. destruct (nlt x y); auto.
    - auto.
  Qed.
  Lemma vmin_le (x : V) l : (forall y, In y (x :: l) -> nisnan y = false) ->
    forall y, In y (x :: l) -> nle (vmin x l) y = true.
  Proof using CL.
    revert x. induction l as [|z l IH]; intros x Hn y Hy; cbn.
    - destruct Hy as [<-|[]]. rewrite (nle_not_lt CL), (nlt_irrefl CL) by (apply Hn; cbn; auto). reflexivity.
    - change (fold_left _ l ?z) with (vmin z l).
      set (w := if nlt z x then z else x).
      assert (Hw : forall u, In u (w :: l) -> nisnan u = false).
      { intros u [<-|Hu]; [unfold w; destruct (nlt z x)|]; apply Hn; cbn; auto. }
      assert (Nx : nisnan x = false) by (apply Hn; cbn; auto).
      assert (Nz : nisnan z = false) by (apply Hn; cbn; auto).
      assert (Nm : nisnan (vmin w l) = false) by (apply Hw, vmin_in).
      pose proof (IH w Hw w (or_introl eq_refl)) as Iw.
      assert (T : forall u, nisnan u = false -> nle w u = true -> nle (vmin w l) u = true).
      { intros u Nu Hu. rewrite (nle_not_lt CL) by auto.
        destruct (nlt u (vmin w l)) eqn:E; [|reflexivity].
        pose proof (nlt_sle CL _ _ E) as E1.
        assert (nisnan w = false) by (apply Hw; cbn; auto).
        assert (S1 : sle (vmin w l) w = true).
        { unfold sle. rewrite Nm, H. cbn. exact Iw. }
        assert (S2 : sle w u = true).
        { unfold sle. rewrite Nu, H. cbn. exact Hu. }
        pose proof (nlt_not_sle CL _ _ E) as E2. rewrite (sle_trans CL _ _ _ S1 S2) in E2. discriminate. }
      destruct Hy as [<-|[<-|Hy]].
      + apply T; auto. unfold w. destruct (nlt z x) eqn:E; rewrite (nle_not_lt CL) by auto; rewrite negb_true_iff.
        * destruct (nlt x z) eqn:E2; [|reflexivity]. rewrite <- (nlt_irrefl CL x). symmetry. apply (nlt_trans CL _ z); auto.
        * apply (nlt_irrefl CL).
      + apply T; auto. unfold w. destruct (nlt z x) eqn:E; rewrite (nle_not_lt CL) by auto; rewrite negb_true_iff.
        * apply (nlt_irrefl CL).
        * exact E.
      + apply IH; [exact Hw|right; exact Hy].
  Qed.
  Lemma vmax_ge (x : V) l : (forall y, In y (x :: l) -> nisnan y = false) ->
    forall y, In y (x :: l) -> nle y (vmax x l) = true.
  Proof using CL.
    revert x. induction l as [|z l IH]; intros x Hn y Hy; cbn.
    - destruct Hy as [<-|[]]. rewrite (nle_not_lt CL), (nlt_irrefl CL) by (apply Hn; cbn; auto). reflexivity.
    - change (fold_left _ l ?z) with (vmax z l).
      set (w := if nlt x z then z else x).
      assert (Hw : forall u, In u (w :: l) -> nisnan u = false).
      { intros u [<-|Hu]; [unfold w; destruct (nlt x z)|]; apply Hn; cbn; auto. }
      assert (Nx : nisnan x = false) by (apply Hn; cbn; auto).
      assert (Nz : nisnan z = false) by (apply Hn; cbn; auto).
      assert (Nm : nisnan (vmax w l) = false) by (apply Hw, vmax_in).
      pose proof (IH w Hw w (or_introl eq_refl)) as Iw.
      assert (T : forall u, nisnan u = false -> nle u w = true -> nle u (vmax w l) = true).
      { intros u Nu Hu. rewrite (nle_not_lt CL) by auto.
        destruct (nlt (vmax w l) u) eqn:E; [|reflexivity].
        assert (nisnan w = false) by (apply Hw; cbn; auto).
        assert (S1 : sle w (vmax w l) = true).
        { unfold sle. rewrite Nm, H. cbn. exact Iw. }
        assert (S2 : sle u w = true).
        { unfold sle. rewrite Nu, H. cbn. exact Hu. }
        pose proof (nlt_not_sle CL _ _ E) as E2. rewrite (sle_trans CL _ _ _ S2 S1) in E2. discriminate. }
      destruct Hy as [<-|[<-|Hy]].
      + apply T; auto. unfold w. destruct (nlt x z) eqn:E; rewrite (nle_not_lt CL) by auto; rewrite negb_true_iff.
        * destruct (nlt z x) eqn:E2; [|reflexivity]. rewrite <- (nlt_irrefl CL x). symmetry. apply (nlt_trans CL _ z); auto.
        * apply (nlt_irrefl CL).
      + apply T; auto. unfold w. destruct (nlt x z) eqn:E; rewrite (nle_not_lt CL) by auto; rewrite negb_true_iff.
        * apply (nlt_irrefl CL).
        * exact E.
      + apply IH; [exact Hw|right; exact Hy].
  Qed.

  (** ** enforce_finite, any numbers *)
  Definition ef_max (l : list V) : V := match filter nisfin l with [] => n1 | x :: r => vmax x r end.
  Definition ef_fix (l : list V) : list V := map (fun v => if nisfin v then v else ef_max l) l.

  Lemma ef_fix_eq l :
    (if existsb (fun v => negb (nisfin v)) l then map (fun v => if nisfin v then v else ef_max l) l else l) = ef_fix l.
  Proof.
    destruct (existsb _ l) eqn:E; [reflexivity|]. unfold ef_fix.
    rewrite <- (map_id l) at 1. apply map_ext_in. intros v Hv.
    destruct (nisfin v) eqn:F; [reflexivity|]. exfalso.
    assert (existsb (fun v => negb (nisfin v)) l = true); [|congruence].
    apply existsb_exists. exists v. split; [exact Hv|]. now rewrite F.
  Qed.

  Hypothesis fin1 : nisfin (n1 : V) = true.
  Lemma ef_max_fin l : nisfin (ef_max l) = true.
  Proof using fin1.
    unfold ef_max. destruct (filter nisfin l) as [|x r] eqn:E; [exact fin1|].
    assert (H : In (vmax x r) (filter nisfin l)) by (rewrite E; apply vmax_in).
    now apply filter_In in H.
  Qed.
  Lemma ef_fix_fin l v : In v (ef_fix l) -> nisfin v = true.
  Proof using fin1.
    unfold ef_fix. rewrite in_map_iff. intros (u & <- & _). destruct (nisfin u) eqn:E; [exact E|apply ef_max_fin].
  Qed.
  Lemma enforce_eq l : l <> [] ->
    exists m, In m (ef_fix l) /\ (forall v, In v (ef_fix l) -> nle m v = true) /\
      enforce_finite l = Ok (if nlt m n0 then map (fun v => nadd v (nopp m)) (ef_fix l) else ef_fix l).
  Proof using CL fin1.
    intros Hl. unfold enforce_finite. fold (ef_max l). rewrite ef_fix_eq.
    destruct (ef_fix l) as [|x r] eqn:E.
    - exfalso. apply Hl. unfold ef_fix in E. now apply map_eq_nil in E.
    - exists (vmin x r). split; [apply vmin_in|]. split; [|reflexivity].
      intros v Hv. apply vmin_le; [|exact Hv].
      intros y Hy. apply (fin_not_nan CL). apply (ef_fix_fin l). now rewrite E.
  Qed.
End MinMax.

(** ** exact arithmetic *)
Lemma xfin1 : nisfin (n1 : xr) = true. Proof. reflexivity. Qed.
Lemma xfin_inv (x : xr) : nisfin x = true -> exists r, x = XFin r.
Proof. destruct x; cbn; try discriminate. eauto. Qed.

Lemma enforce_xr (l : list xr) : l <> [] -> exists m : R,
  In (XFin m) (ef_fix l) /\ (forall v, In (XFin v) (ef_fix l) -> (m <= v)%R) /\
  let s := Rmax 0 (- m) in
  enforce_finite l = Ok (map (fun v => xadd v (XFin s)) (ef_fix l)) /\ (0 <= s)%R /\ (0 <= m + s)%R /\
  (s = 0 \/ m + s = 0)%R.
Proof.
  intros Hl. destruct (enforce_eq xr_cmp xfin1 l Hl) as (m & Hm & Hmin & E).
  destruct (xfin_inv m) as (m' & ->); [now apply (ef_fix_fin xfin1 l)|].
  exists m'. split; [exact Hm|]. split.
  { intros v Hv. specialize (Hmin _ Hv). cbn in Hmin. destruct (Rle_dec m' v); [assumption|discriminate]. }
  intros s.
  assert (Hs : (0 <= s)%R) by apply Rmax_l.
  assert (Hs2 : (- m' <= s)%R) by apply Rmax_r.
  repeat split; auto; try lra.
  - rewrite E. change (nlt (XFin m') n0) with (if Rlt_dec m' (IZR 0) then true else false).
    destruct (Rlt_dec m' (IZR 0)) as [H|H].
    + f_equal. apply map_ext. intros v. change (nadd v (nopp (XFin m'))) with (xadd v (XFin (- m'))).
      unfold s. now rewrite Rmax_right by (cbn in H; lra).
    + f_equal. rewrite <- (map_id (ef_fix l)) at 1. apply map_ext_in. intros v Hv.
      destruct (xfin_inv v (ef_fix_fin xfin1 l v Hv)) as (r & ->).
      unfold s. rewrite Rmax_left by (cbn in H; lra). cbn. f_equal. lra.
  - unfold s. destruct (Rle_dec 0 (- m')) as [H|H]; [right; rewrite Rmax_right; lra|left; rewrite Rmax_left; lra].
Qed.

Lemma ef_max_top (l : list xr) (r : R) : In (XFin r) l -> exists d, ef_max l = XFin d /\ (r <= d)%R /\ In (XFin d) l.
Proof.
  intros H. unfold ef_max.
  assert (HF : In (XFin r) (filter nisfin l)) by (apply filter_In; split; auto).
  destruct (filter nisfin l) as [|x t] eqn:E; [contradiction|].
  assert (Hn : forall y, In y (x :: t) -> exists a, y = XFin a /\ In y l).
  { intros y Hy. rewrite <- E in Hy. apply filter_In in Hy as (Hy & Fy). destruct (xfin_inv y Fy) as (a & ->). eauto. }
  destruct (Hn _ (vmax_in x t)) as (d & Ed & Hd). exists d. split; [exact Ed|].
  split; [|now rewrite <- Ed].
  assert (G : nle (XFin r) (vmax x t) = true).
  { apply (vmax_ge xr_cmp x t); [|exact HF]. intros y Hy. destruct (Hn y Hy) as (a & -> & _). reflexivity. }
  rewrite Ed in G. cbn in G. destruct (Rle_dec r d); [assumption|discriminate].
Qed.
Lemma ef_max_none (l : list xr) : (forall x, In x l -> nisfin x = false) -> ef_max l = XFin 1.
Proof.
  intros H. unfold ef_max. destruct (filter nisfin l) as [|x t] eqn:E; [reflexivity|].
  assert (HF : In x (filter nisfin l)) by (rewrite E; now left).
  apply filter_In in HF as (Hx & Fx). rewrite (H x Hx) in Fx. discriminate.
Qed.

Lemma ef_fix_nth {V} {N : Num V} (l : list V) i d d' : i < length l ->
  nth i (ef_fix l) d = if nisfin (nth i l d') then nth i l d' else ef_max l.
Proof.
  intros Hi. unfold ef_fix. set (f := fun v => if nisfin v then v else ef_max l).
  rewrite (nth_indep _ d (f d')) by now rewrite map_length. rewrite map_nth. reflexivity.
Qed.
Lemma ef_fix_length {V} {N : Num V} (l : list V) : length (ef_fix l) = length l.
Proof. apply map_length. Qed.

(** already finite and non-negative: nothing changes *)
Lemma enforce_id (l : list xr) : l <> [] -> (forall x, In x l -> exists r, x = XFin r /\ (0 <= r)%R) ->
  enforce_finite l = Ok l.
Proof.
  intros Hl H. destruct (enforce_xr l Hl) as (m & Hm & _ & E & H0 & Hs & Hc).
  set (s := Rmax 0 (- m)) in *. cbn zeta in E.
  assert (Ef : ef_fix l = l).
  { unfold ef_fix. rewrite <- (map_id l) at 2. apply map_ext_in. intros v Hv. destruct (H v Hv) as (r & -> & _). reflexivity. }
  rewrite Ef in *. destruct (H _ Hm) as (m' & [= <-] & Hm0).
  assert (s = 0)%R by (destruct Hc; lra).
  rewrite E. f_equal. rewrite <- (map_id l) at 2. apply map_ext_in. intros v Hv. destruct (H v Hv) as (r & -> & _).
  rewrite H1. cbn. f_equal. lra.
Qed.

(** ** binary64: addition of [v] and [-m] for m <= v, m < 0, both finite *)
Lemma shift_nonneg (v m : f64) : is_finite v = true -> is_finite m = true -> nle m v = true ->
  nisnan (nadd v (nopp m)) = false /\ nle n0 (nadd v (nopp m)) = true.
Proof.
  intros Fv Fm Hle.
  assert (Hr : (B2R m <= B2R v)%R) by (now apply nle_B2R in Hle).
  change (nadd v (nopp m)) with (Bplus mode_NE v (Bopp m)).
  assert (Fo : is_finite (Bopp m) = true) by now rewrite is_finite_Bopp.
  pose proof (Bplus_correct 53 1024 prec53 emax1024 mode_NE v (Bopp m) Fv Fo) as H.
  rewrite B2R_Bopp in H.
  replace (B2R v + - B2R m)%R with (B2R v - B2R m)%R in H by lra.
  set (z := Bplus mode_NE v (Bopp m)) in *.
  destruct (Rlt_bool _ _) eqn:Eb.
  - destruct H as (Hz & Fz & _). split; [now destruct z|].
    assert (Hp : (0 <= B2R z)%R).
    { rewrite Hz. rewrite <- (round_0 radix2 (SpecFloat.fexp 53 1024) (round_mode mode_NE)).
      apply round_le; [apply fexp_correct; reflexivity|apply valid_rnd_round_mode|lra]. }
    unfold nle. cbn [Num_f64]. rewrite Bleb_correct by auto. apply Rle_bool_true.
    change (B2R (n0 : f64)) with 0%R. exact Hp.
  - destruct H as (Hz & Hs).
    assert (Bsign v = false).
    { destruct (Bsign v) eqn:Sv; [exfalso|reflexivity].
      assert (V0 : (B2R v <= 0)%R).
      { destruct v as [ | | |sv mv ev pv]; cbn in *; try lra; try discriminate. subst sv. apply F2R_le_0. cbn. lia. }
      assert (M0 : (0 <= B2R m)%R).
      { rewrite Bsign_Bopp in Hs by now destruct m. 
        destruct m as [ | | |sm mm em pm]; cbn in *; try lra; try discriminate. destruct sm; [discriminate|]. apply F2R_ge_0. cbn. lia. }
      apply Rlt_bool_false_inv in Eb || idtac.
      assert (E0 : (B2R v - B2R m = 0)%R) by lra. rewrite E0, round_0, Rabs_R0 in Eb by apply valid_rnd_round_mode.
      rewrite Rlt_bool_true in Eb; [discriminate|]. apply bpow_gt_0. }
    rewrite H in Hz. destruct z as [ | sz | | ]; cbn in Hz; try discriminate; injection Hz as ->; split; reflexivity.
Qed.

(** ** the sparse matrix *)
Section Sparse.
  Context {V : Type} {N : Num V}.

  (** columns of the candidate list of row [i] that hold object [j] *)
  Definition hits (ind : cand_ind) (m i j : nat) : list nat :=
    filter (fun c => nth c (cand_row ind i) 0 =? j) (seq 0 m).

  Lemma coo_row (D : arr2 V) ind i j : i < nrow D ->
    map snd (filter (fun t => (fst (fst t) =? i) && (snd (fst t) =? j)) (coo_triples D ind))
    = map (at2 D i) (hits ind (ncol D) i j).
  Proof.
    intros Hi. unfold coo_triples, hits.
    assert (G : forall a b, (forall x, In x (seq a b) -> x <> i) ->
      filter (fun t : nat * nat * V => (fst (fst t) =? i) && (snd (fst t) =? j))
        (concat (map (fun i => map (fun c => (i, nth c (cand_row ind i) 0, at2 D i c)) (seq 0 (ncol D))) (seq a b))) = []).
    { intros a b Hx. revert a Hx. induction b as [|b IH]; intros a Hx; cbn; [reflexivity|].
      rewrite filter_app. rewrite IH by (intros x Hx'; apply Hx; cbn; auto). rewrite app_nil_r.
      assert (Ha : a <> i) by (apply Hx; cbn; auto).
      generalize (seq 0 (ncol D)). intros l. induction l as [|c l IHl]; cbn; [reflexivity|].
      apply Nat.eqb_neq in Ha. rewrite Ha. exact IHl. }
    replace (nrow D) with (i + S (nrow D - i - 1)) by lia.
    rewrite seq_app, map_app, concat_app, filter_app. cbn [seq map concat].
    rewrite filter_app.
    rewrite (G 0 i) by (intros x Hx; apply in_seq in Hx; lia).
    rewrite (G (S (0 + i))) by (intros x Hx; apply in_seq in Hx; lia).
    rewrite app_nil_r. cbn [app Nat.add].
    generalize (seq 0 (ncol D)). intros l. induction l as [|c l IHl]; cbn; [reflexivity|].
    rewrite Nat.eqb_refl. cbn. destruct (_ =? j); cbn; [f_equal|]; exact IHl.
  Qed.
  Lemma coo_row_out (D : arr2 V) ind i j : nrow D <= i ->
    filter (fun t => (fst (fst t) =? i) && (snd (fst t) =? j)) (coo_triples D ind) = [].
  Proof.
    intros Hi. unfold coo_triples.
    assert (G : forall l, (forall x, In x l -> x < i) ->
      filter (fun t : nat * nat * V => (fst (fst t) =? i) && (snd (fst t) =? j))
        (concat (map (fun i => map (fun c => (i, nth c (cand_row ind i) 0, at2 D i c)) (seq 0 (ncol D))) l)) = []).
    { induction l as [|a l IH]; intros Hx; cbn; [reflexivity|].
      rewrite filter_app, IH by (intros x Hx'; apply Hx; now right). rewrite app_nil_r.
      assert (Ha : a =? i = false) by (apply Nat.eqb_neq; specialize (Hx a (or_introl eq_refl)); lia).
      generalize (seq 0 (ncol D)). intros l'. induction l' as [|c l' IHl]; cbn; [reflexivity|].
      now rewrite Ha. }
    apply G. intros x Hx. apply in_seq in Hx. lia.
  Qed.

  Lemma hits_single ind m i c : NoDup (cand_row ind i) -> length (cand_row ind i) = m -> c < m ->
    hits ind m i (nth c (cand_row ind i) 0) = [c].
  Proof.
    intros Hn Hl Hc. unfold hits. replace m with (c + S (m - c - 1)) by lia.
    rewrite seq_app, filter_app. cbn [seq filter Nat.add]. rewrite Nat.eqb_refl.
    assert (G : forall l, (forall x, In x l -> x < m /\ x <> c) ->
      filter (fun c0 => nth c0 (cand_row ind i) 0 =? nth c (cand_row ind i) 0) l = []).
    { induction l as [|x l IH]; intros Hx; cbn; [reflexivity|].
      destruct (nth x _ 0 =? _) eqn:E.
      - apply Nat.eqb_eq in E. destruct (Hx x (or_introl eq_refl)) as (H1 & H2). exfalso. apply H2.
        apply (proj1 (NoDup_nth (cand_row ind i) 0) Hn); lia || exact E.
      - apply IH. intros y Hy. apply Hx. now right. }
    rewrite !G; [reflexivity| |]; intros x Hx; apply in_seq in Hx; lia.
  Qed.
  Lemma hits_none ind m i j : length (cand_row ind i) = m -> ~ In j (cand_row ind i) -> hits ind m i j = [].
  Proof.
    intros Hl Hj. unfold hits. destruct (filter _ (seq 0 m)) as [|x t] eqn:E; [reflexivity|exfalso].
    assert (H : In x (x :: t)) by now left. rewrite <- E in H. apply filter_In in H as (H1 & H2).
    apply Nat.eqb_eq in H2. apply Hj. rewrite <- H2. apply nth_In. apply in_seq in H1. lia.
  Qed.
  Lemma sparse_ok_inv (D : arr2 V) ind n M : sparse_distance_matrix D ind n = Ok M -> M = coo_tocsr (coo_triples D ind).
  Proof. unfold sparse_distance_matrix. destruct (existsb _ _); cbn; [discriminate|congruence]. Qed.
  Lemma sparse_ok_iff (D : arr2 V) ind n :
    (forall i, i < nrow D -> length (cand_row ind i) = ncol D) ->
    (sparse_distance_matrix D ind n = Raise ValueError /\ exists i j, i < nrow D /\ In j (cand_row ind i) /\ n <= j) \/
    ((exists M, sparse_distance_matrix D ind n = Ok M) /\ forall i j, i < nrow D -> In j (cand_row ind i) -> j < n).
  Proof.
    intros Hl. unfold sparse_distance_matrix. destruct (existsb _ _) eqn:E; cbn.
    - left. split; [reflexivity|]. apply existsb_exists in E as (t & Ht & Hn).
      unfold coo_triples in Ht. apply in_concat in Ht as (r & Hr & Ht). apply in_map_iff in Hr as (i & <- & Hi).
      apply in_map_iff in Ht as (c & <- & Hc). cbn in Hn. apply Nat.leb_le in Hn. apply in_seq in Hi, Hc.
      exists i, (nth c (cand_row ind i) 0). split; [lia|]. split; [apply nth_In; rewrite Hl; lia|exact Hn].
    - right. split; [eauto|]. intros i j Hi Hj. destruct (In_nth _ _ 0 Hj) as (c & Hc & <-).
      destruct (lt_dec (nth c (cand_row ind i) 0) n) as [H|H]; [exact H|exfalso].
      assert (existsb (fun t : nat * nat * V => n <=? snd (fst t)) (coo_triples D ind) = true); [|congruence].
      apply existsb_exists. exists (i, nth c (cand_row ind i) 0, at2 D i c). split; [|cbn; apply Nat.leb_le; lia].
      unfold coo_triples. apply in_concat. eexists. split; [apply in_map_iff; exists i; split; [reflexivity|apply in_seq; lia]|].
      apply in_map_iff. exists c. split; [reflexivity|]. apply in_seq. rewrite Hl in Hc by exact Hi. lia.
  Qed.
End Sparse.

Lemma fold_xadd_fin (l : list R) (x : R) : fold_left xadd (map XFin l) (XFin x) = XFin (rsum (x :: l)).
Proof.
  revert x. induction l as [|y l IH]; intros x; cbn; [f_equal; lra|].
  rewrite IH. cbn. f_equal. lra.
Qed.
