(** F-measures: exact values and float64 ranges. *)
From Coq Require Import ZArith Reals Lra Lia Bool List Arith.
From Flocq Require Import Core BinarySingleNaN Mult_error.
From Verif Require Import Py Num Arr M_KNN P_F64 P_GK2 P_KNN3.
Import ListNotations.
Local Open Scope R_scope.

(** ** float64 operations that do not overflow *)
Lemma f_add (x y : f64) : is_finite x = true -> is_finite y = true ->
  Rabs (rnd (B2R x + B2R y)) < bpow radix2 1024 ->
  is_finite (nadd x y) = true /\ B2R (nadd x y) = rnd (B2R x + B2R y).
Proof.
  intros Fx Fy Hb. change (nadd x y) with (Bplus mode_NE x y).
  pose proof (Bplus_correct 53 1024 prec53 emax1024 mode_NE x y Fx Fy) as H.
  fold (rnd (B2R x + B2R y)) in H. rewrite Rlt_bool_true in H by assumption.
  destruct H as (H1 & H2 & _). auto.
Qed.
Lemma f_mul (x y : f64) : is_finite x = true -> is_finite y = true ->
  Rabs (rnd (B2R x * B2R y)) < bpow radix2 1024 ->
  is_finite (nmul x y) = true /\ B2R (nmul x y) = rnd (B2R x * B2R y).
Proof.
  intros Fx Fy Hb. change (nmul x y) with (Bmult mode_NE x y).
  pose proof (Bmult_correct 53 1024 prec53 emax1024 mode_NE x y) as H.
  fold (rnd (B2R x * B2R y)) in H. rewrite Rlt_bool_true in H by assumption.
  destruct H as (H1 & H2 & _). rewrite H2, Fx, Fy. auto.
Qed.
Lemma f_div (x y : f64) : is_finite x = true -> B2R y <> 0 ->
  Rabs (rnd (B2R x / B2R y)) < bpow radix2 1024 ->
  is_finite (ndiv x y) = true /\ B2R (ndiv x y) = rnd (B2R x / B2R y).
Proof.
  intros Fx Hy Hb. change (ndiv x y) with (Bdiv mode_NE x y).
  pose proof (Bdiv_correct 53 1024 prec53 emax1024 mode_NE x y Hy) as H.
  fold (rnd (B2R x / B2R y)) in H. rewrite Rlt_bool_true in H by assumption.
  destruct H as (H1 & H2 & _). rewrite H2. auto.
Qed.

Lemma gen_B2R (x : f64) : generic_format radix2 (SpecFloat.fexp 53 1024) (B2R x).
Proof. apply generic_format_B2R. Qed.
Lemma rnd_B2R (x : f64) : rnd (B2R x) = B2R x.
Proof. apply rnd_gen, gen_B2R. Qed.
Lemma rnd_twice (x : f64) : rnd (2 * B2R x) = 2 * B2R x.
Proof.
  apply rnd_gen. rewrite Rmult_comm. change 2 with (bpow radix2 1).
  apply (mult_bpow_pos_exact_FLT radix2 (SpecFloat.emin 53 1024) 53); [apply gen_B2R|lia].
Qed.

Lemma p53_big : IZR (2 ^ 53) < bpow radix2 1024.
Proof. change (IZR (2 ^ 53)) with (bpow radix2 53). apply bpow_lt. reflexivity. Qed.

Lemma nn_below x b : 0 <= x <= IZR b -> (0 <= b <= 2 ^ 53)%Z ->
  0 <= rnd x <= IZR b /\ Rabs (rnd x) < bpow radix2 1024.
Proof.
  intros (H1 & H2) Hb.
  assert (A : 0 <= rnd x) by (rewrite <- rnd_0; now apply rnd_le).
  assert (B : rnd x <= IZR b) by (rewrite <- (Z_in_range b) by lia; now apply rnd_le).
  split; [lra|]. rewrite Rabs_pos_eq by lra. pose proof p53_big.
  assert (IZR b <= IZR (2 ^ 53)) by (apply IZR_le; lia). lra.
Qed.

(** ** one table *)
Lemma f1_range64 (t : tab) : (Z.of_nat (tp t + fp t + fn t) <= 2 ^ 53)%Z ->
  is_finite (f1_score (V:=f64) t) = true /\ 0 <= B2R (f1_score (V:=f64) t) <= 1.
Proof.
  intros Hb. unfold f1_score. destruct (Nat.eqb_spec (tp t) 0) as [E|E].
  - destruct n0_f64 as (-> & ->). split; [reflexivity|lra].
  - destruct (frac_correct (tp t) (tp t + fp t)) as ((Fp & _ & Up) & Ep); [lia|lia|lia|].
    destruct (frac_correct (tp t) (tp t + fn t)) as ((Fr & _ & Ur) & Er); [lia|lia|lia|].
    cbv zeta.
    set (p := ndiv (V:=f64) (nofnat (tp t)) (nofnat (tp t + fp t))) in *.
    set (r := ndiv (V:=f64) (nofnat (tp t)) (nofnat (tp t + fn t))) in *.
    assert (Pp : 0 < B2R p).
    { rewrite Ep. apply Rlt_le_trans with (bpow radix2 (-53)); [apply bpow_gt_0|].
      apply rnd_gt0. rewrite !INR_IZR_INZ.
      change (bpow radix2 (-53)) with (/ IZR (2 ^ 53)).
      assert (0 < IZR (Z.of_nat (tp t + fp t))) by (apply IZR_lt; lia).
      apply Rle_trans with (/ IZR (Z.of_nat (tp t + fp t))).
      - apply Rinv_le; [assumption|]. apply IZR_le. lia.
      - unfold Rdiv. rewrite <- (Rmult_1_l (/ _)) at 1. apply Rmult_le_compat_r.
        + left. now apply Rinv_0_lt_compat.
        + apply IZR_le. lia. }
    destruct (f64_ofZ_exact 2) as (E2 & F2); [vm_compute; discriminate|].
    destruct (f_mul (nofZ 2) p) as (Fm & Em); [exact F2|exact Fp| |].
    { change (nofZ 2) with (f64_ofZ 2). rewrite E2. apply (nn_below _ 2); [lra|lia]. }
    change (nofZ 2) with (f64_ofZ 2) in *. rewrite E2, rnd_twice in Em.
    set (m := nmul (f64_ofZ 2) p) in *.
    assert (Hmr : 0 <= B2R m * B2R r <= B2R p + B2R r) by (rewrite Em; nra).
    destruct (f_mul m r) as (Fq & Eq); [exact Fm|exact Fr| |].
    { apply (nn_below _ 2); [lra|lia]. }
    destruct (f_add p r) as (Fs & Es); [exact Fp|exact Fr| |].
    { apply (nn_below _ 2); [lra|lia]. }
    set (q := nmul m r) in *. set (s := nadd p r) in *.
    assert (Hs : 0 < B2R s).
    { rewrite Es. apply Rlt_le_trans with (rnd (B2R p)); [now rewrite rnd_B2R|]. apply rnd_le. lra. }
    assert (Hq : 0 <= B2R q <= B2R s).
    { rewrite Eq, Es. split; [rewrite <- rnd_0|]; apply rnd_le; lra. }
    assert (Hd : 0 <= B2R q / B2R s <= 1).
    { split.
      - apply Rmult_le_pos; [lra|]. left. now apply Rinv_0_lt_compat.
      - apply (Rmult_le_reg_r (B2R s)); [assumption|]. unfold Rdiv.
        rewrite Rmult_assoc, Rinv_l, Rmult_1_r, Rmult_1_l by lra. lra. }
    destruct (f_div q s) as (Fd & Ed); [exact Fq|lra| |].
    { apply (nn_below _ 1); [lra|lia]. }
    split; [exact Fd|]. rewrite Ed. now apply rnd_unit.
Qed.

(** ** sums *)
Lemma np_sum_range (l : list f64) s : np_sum l s -> forall w : list nat,
  length w = length l ->
  (Z.of_nat (sum_nat w) <= 2 ^ 53)%Z ->
  (forall i, (i < length l)%nat -> is_finite (nth i l n0) = true /\
     0 <= B2R (nth i l n0) <= IZR (Z.of_nat (nth i w 0%nat))) ->
  is_finite s = true /\ 0 <= B2R s <= IZR (Z.of_nat (sum_nat w)).
Proof.
  induction 1 as [|v|l1 l2 v1 v2 N1 N2 H1 IH1 H2 IH2]; intros w Hw Hb H.
  - destruct n0_f64 as (-> & ->). destruct w; [|discriminate]. simpl. split; [reflexivity|lra].
  - destruct w as [|a [|]]; try discriminate. destruct (H 0%nat) as (F & B); [simpl; lia|]. simpl in *.
    rewrite Nat.add_0_r in *. auto.
  - rewrite app_length in *. set (w1 := firstn (length l1) w). set (w2 := skipn (length l1) w).
    assert (E : w = w1 ++ w2) by (symmetry; apply firstn_skipn).
    assert (L1 : length w1 = length l1) by (unfold w1; rewrite firstn_length; lia).
    assert (L2 : length w2 = length l2) by (unfold w2; rewrite skipn_length; lia).
    rewrite E, sum_nat_app in *.
    destruct (IH1 w1) as (F1 & B1); [assumption|lia| |].
    { intros i Hi. destruct (H i) as (F & B); [lia|]. rewrite !app_nth1 in * by lia. auto. }
    destruct (IH2 w2) as (F2 & B2); [assumption|lia| |].
    { intros i Hi. destruct (H (length l1 + i)%nat) as (F & B); [lia|].
      rewrite !app_nth2_plus in F, B. rewrite <- L1, app_nth2_plus in B. auto. }
    rewrite Nat2Z.inj_add, plus_IZR in *.
    destruct (nn_below (B2R v1 + B2R v2) (Z.of_nat (sum_nat w1) + Z.of_nat (sum_nat w2))) as (R & A).
    + rewrite plus_IZR. lra.
    + lia.
    + rewrite plus_IZR in R. destruct (f_add v1 v2 F1 F2 A) as (F & ->). auto.
Qed.

Lemma quot_unit (s : f64) b : is_finite s = true -> (0 < b <= 2 ^ 53)%Z -> 0 <= B2R s <= IZR b ->
  is_finite (ndiv s (nofZ b)) = true /\ 0 <= B2R (ndiv s (nofZ b)) <= 1.
Proof.
  intros F Hb Hs. destruct (f64_ofZ_exact b) as (Eb & Fb); [lia|].
  assert (Pb : 0 < IZR b) by (apply IZR_lt; lia).
  assert (Hd : 0 <= B2R s / IZR b <= 1).
  { split.
    - apply Rmult_le_pos; [lra|]. left. now apply Rinv_0_lt_compat.
    - apply (Rmult_le_reg_r (IZR b)); [assumption|]. unfold Rdiv.
      rewrite Rmult_assoc, Rinv_l, Rmult_1_r, Rmult_1_l by lra. lra. }
  change (nofZ b) with (f64_ofZ b).
  destruct (f_div s (f64_ofZ b)) as (Fd & Ed); [exact F|rewrite Eb; lra| |].
  { rewrite Eb. apply (nn_below _ 1); [lra|lia]. }
  rewrite Eb in Ed. rewrite Ed. split; [exact Fd|]. now apply rnd_unit.
Qed.

Lemma macro_range (ts : list tab) (r : f64) : ts <> [] -> (Z.of_nat (length ts) <= 2 ^ 53)%Z ->
  (forall t, In t ts -> (Z.of_nat (tp t + fp t + fn t) <= 2 ^ 53)%Z) ->
  f1_macro ts r -> is_finite r = true /\ 0 <= B2R r <= 1.
Proof.
  intros Hne Hb Ht (s & Hs & ->).
  destruct (np_sum_range _ _ Hs (map (fun _ => 1%nat) ts)) as (F & B).
  - now rewrite !map_length.
  - rewrite sum_nat_const. lia.
  - intros i Hi. rewrite map_length in Hi.
    assert (E1 : nth i (map (fun _ : tab => 1%nat) ts) 0%nat = 1%nat).
    { now rewrite (nth_map_in _ _ _ _ (Tab 0 0 0 0)). }
    assert (E2 : nth i (map (f1_score (V:=f64)) ts) n0 = f1_score (nth i ts (Tab 0 0 0 0))).
    { now rewrite (nth_map_in _ _ _ _ (Tab 0 0 0 0)). }
    rewrite E1, E2. change (IZR (Z.of_nat 1)) with 1. apply f1_range64, Ht, nth_In. assumption.
  - rewrite sum_nat_const, Nat.mul_1_r in B. apply quot_unit; auto.
    destruct ts; [congruence|simpl in *; lia].
Qed.

Lemma weighted_range (ts : list tab) (r : f64) :
  (forall t, In t ts -> (Z.of_nat (tp t + fp t + fn t) <= 2 ^ 53)%Z) ->
  (Z.of_nat (sum_nat (map tab_weight ts)) <= 2 ^ 53)%Z ->
  f1_weighted ts (Ok r) -> is_finite r = true /\ 0 <= B2R r <= 1.
Proof.
  intros Ht Hb. unfold f1_weighted. destruct (Nat.eqb_spec (sum_nat (map tab_weight ts)) 0) as [E|E]; [discriminate|].
  intros (s & Hs & Hr). injection Hr as ->.
  destruct (np_sum_range _ _ Hs (map tab_weight ts)) as (F & B).
  - now rewrite !map_length.
  - assumption.
  - intros i Hi. rewrite map_length in Hi. set (t := nth i ts (Tab 0 0 0 0)).
    assert (E1 : nth i (map tab_weight ts) 0%nat = tab_weight t) by
      (now rewrite (nth_map_in _ _ _ _ (Tab 0 0 0 0))).
    assert (E2 : nth i (map (fun t => nmul (V:=f64) (f1_score t) (nofnat (tab_weight t))) ts) n0 =
                 nmul (f1_score t) (nofnat (tab_weight t))).
    { now rewrite (nth_map_in _ _ _ _ (Tab 0 0 0 0)). }
    rewrite E1, E2. assert (Hin : In t ts) by now apply nth_In. specialize (Ht t Hin).
    destruct (f1_range64 t Ht) as (Ff & Bf).
    assert (Hw : (Z.of_nat (tab_weight t) <= 2 ^ 53)%Z) by (unfold tab_weight; lia).
    destruct (f64_ofZ_exact (Z.of_nat (tab_weight t))) as (Ew & Fw); [lia|].
    assert (Pw : 0 <= IZR (Z.of_nat (tab_weight t))) by (apply IZR_le; lia).
    unfold nofnat. change (nofZ (Z.of_nat (tab_weight t))) with (f64_ofZ (Z.of_nat (tab_weight t))).
    destruct (nn_below (B2R (f1_score (V:=f64) t) * IZR (Z.of_nat (tab_weight t))) (Z.of_nat (tab_weight t))) as (R & A).
    + split; [apply Rmult_le_pos; lra|].
      rewrite <- (Rmult_1_l (IZR (Z.of_nat (tab_weight t)))) at 2. apply Rmult_le_compat_r; lra.
    + lia.
    + destruct (f_mul (f1_score (V:=f64) t) (f64_ofZ (Z.of_nat (tab_weight t)))) as (F & ->); auto.
      * now rewrite Ew.
      * rewrite Ew. auto.
  - unfold nofnat. apply quot_unit; auto. lia.
Qed.

(** ** exact values *)
Lemma xdiv_fin a b : b <> 0 -> xdiv (XFin a) (XFin b) = XFin (a / b).
Proof. intros H. simpl. destruct (Req_EM_T b 0); [contradiction|reflexivity]. Qed.

Lemma f1_exact (t : tab) : f1_score (V:=xr) t =
  XFin (if (tp t =? 0)%nat then 0 else 2 * INR (tp t) / (2 * INR (tp t) + INR (fp t) + INR (fn t))).
Proof.
  unfold f1_score. destruct (Nat.eqb_spec (tp t) 0) as [E|E]; [reflexivity|].
  assert (Pt : 0 < INR (tp t)) by (apply lt_0_INR; lia).
  pose proof (pos_INR (fp t)) as Pf. pose proof (pos_INR (fn t)) as Pn.
  unfold nofnat. simpl. rewrite <- !INR_IZR_INZ, !plus_INR.
  assert (P1 : 0 < INR (tp t) / (INR (tp t) + INR (fp t)))
    by (apply Rmult_lt_0_compat; [lra|apply Rinv_0_lt_compat; lra]).
  assert (P2 : 0 < INR (tp t) / (INR (tp t) + INR (fn t)))
    by (apply Rmult_lt_0_compat; [lra|apply Rinv_0_lt_compat; lra]).
  destruct (Req_EM_T (INR (tp t) + INR (fp t)) 0); [lra|].
  destruct (Req_EM_T (INR (tp t) + INR (fn t)) 0); [lra|]. simpl.
  destruct (Req_EM_T (INR (tp t) / (INR (tp t) + INR (fp t)) + INR (tp t) / (INR (tp t) + INR (fn t))) 0); [lra|].
  f_equal. field. repeat split; try lra. nra.
Qed.
