(** Lemmas for C187: accuracy of the F measures in float64. *)
From Coq Require Import ZArith Reals Lra Lia Bool List Arith.
From Flocq Require Import Core BinarySingleNaN.
From Verif Require Import Py Num Arr M_KNN P_F64 P_GK2 P_KNN3 P_F1 P_LSFloat P_LSAcc P_GKAcc Properties_KNN.
Import ListNotations.
Local Open Scope R_scope.

(** [x] is [K] after [m] roundings *)
Definition pw (m : nat) (K x : R) : Prop := K * (1 - u53) ^ m <= x <= K * (1 + u53) ^ m.

Lemma u_bounds : 0 < u53 <= / 1000.
Proof. split; [apply u53_pos|apply u53_small]. Qed.
Lemma lo_pow m : 0 < (1 - u53) ^ m <= 1.
Proof.
  pose proof u_bounds. induction m as [|m IH]; simpl; [lra|]. split; [nra|]. nra.
Qed.
Lemma hi_pow m : 1 <= (1 + u53) ^ m.
Proof. pose proof u_bounds. induction m as [|m IH]; simpl; [lra|]. nra. Qed.

Lemma pw_refl K : pw 0 K K.
Proof. unfold pw. simpl. lra. Qed.
Lemma pw_weak m m' K x : (m <= m')%nat -> 0 <= K -> pw m K x -> pw m' K x.
Proof.
  intros Hm HK (A & B). replace m' with (m + (m' - m))%nat by lia. unfold pw. rewrite !pow_add.
  pose proof (lo_pow (m' - m)). pose proof (hi_pow (m' - m)). pose proof (lo_pow m). pose proof (hi_pow m).
  split.
  - apply Rle_trans with (K * (1 - u53) ^ m); [|exact A]. rewrite <- Rmult_assoc.
    rewrite <- (Rmult_1_r (K * (1 - u53) ^ m)) at 2. apply Rmult_le_compat_l; [apply Rmult_le_pos; lra|lra].
  - apply Rle_trans with (K * (1 + u53) ^ m); [exact B|]. rewrite <- Rmult_assoc.
    rewrite <- (Rmult_1_r (K * (1 + u53) ^ m)) at 1. apply Rmult_le_compat_l; [apply Rmult_le_pos; lra|lra].
Qed.
Lemma pw_pos m K x : 0 <= K -> pw m K x -> 0 <= x.
Proof. intros HK (A & _). pose proof (lo_pow m). apply Rle_trans with (2 := A). apply Rmult_le_pos; lra. Qed.
Lemma pw_pos' m K x : 0 < K -> pw m K x -> 0 < x.
Proof. intros HK (A & _). pose proof (lo_pow m). apply Rlt_le_trans with (2 := A). apply Rmult_lt_0_compat; lra. Qed.
Lemma pw_rnd m K x : 0 <= K -> x = 0 \/ bpow radix2 (-1022) <= x -> pw m K x -> pw (S m) K (rnd x).
Proof.
  intros HK Hx Hp. pose proof (pw_pos m K x HK Hp) as Px. destruct Hp as (A & B).
  pose proof u_bounds as Hu.
  assert (H : exists e, Rabs e <= u53 /\ rnd x = x * (1 + e)).
  { destruct Hx as [->|Hx].
    - exists 0. rewrite rnd_0, Rabs_R0. split; [lra|ring].
    - apply rnd_norm. now rewrite Rabs_pos_eq by lra. }
  destruct H as (e & He & ->). apply Rabs_le_inv in He. unfold pw. simpl.
  pose proof (lo_pow m). pose proof (hi_pow m). split.
  - apply Rle_trans with ((K * (1 - u53) ^ m) * (1 - u53)); [right; ring|]. apply Rmult_le_compat; try lra.
    apply Rmult_le_pos; lra.
  - apply Rle_trans with ((K * (1 + u53) ^ m) * (1 + u53)); [|right; ring]. apply Rmult_le_compat; lra.
Qed.
Lemma pw_mul m m' K K' x x' : 0 <= K -> 0 <= K' -> pw m K x -> pw m' K' x' -> pw (m + m') (K * K') (x * x').
Proof.
  intros HK HK' Hx Hx'. pose proof (pw_pos _ _ _ HK Hx). pose proof (pw_pos _ _ _ HK' Hx').
  destruct Hx as (A & B). destruct Hx' as (A' & B'). unfold pw. rewrite !pow_add.
  pose proof (lo_pow m). pose proof (lo_pow m'). split.
  - replace (K * K' * ((1 - u53) ^ m * (1 - u53) ^ m')) with ((K * (1 - u53) ^ m) * (K' * (1 - u53) ^ m')) by ring.
    apply Rmult_le_compat; try assumption; apply Rmult_le_pos; lra.
  - replace (K * K' * ((1 + u53) ^ m * (1 + u53) ^ m')) with ((K * (1 + u53) ^ m) * (K' * (1 + u53) ^ m')) by ring.
    apply Rmult_le_compat; assumption.
Qed.
Lemma pw_inv m K x : 0 < K -> pw m K x -> pw (2 * m) (/ K) (/ x).
Proof.
  intros HK Hx. pose proof (pw_pos' _ _ _ HK Hx) as Px. destruct Hx as (A & B). unfold pw.
  pose proof (lo_pow m) as Lm. pose proof (hi_pow m) as Hm. pose proof u_bounds as Hu.
  assert (E1 : 1 <= (1 - u53) ^ m * (1 + u53) ^ (2 * m)).
  { clear - Hu. induction m as [|m IH]; [simpl; lra|]. replace (2 * S m)%nat with (S (S (2 * m))) by lia. cbn [pow].
    replace ((1 - u53) * (1 - u53) ^ m * ((1 + u53) * ((1 + u53) * (1 + u53) ^ (2 * m))))
      with (((1 - u53) * (1 + u53) * (1 + u53)) * ((1 - u53) ^ m * (1 + u53) ^ (2 * m))) by ring.
    assert (U2 : u53 * u53 <= u53 * / 1000) by (apply Rmult_le_compat_l; lra).
    assert (U3 : u53 * (u53 * u53) <= u53 * / 1000) by (apply Rmult_le_compat_l; lra).
    rewrite <- (Rmult_1_r 1) at 1. apply Rmult_le_compat; try lra.
    all: try (apply Rmult_le_pos; apply pow_le; lra). }
  assert (E2 : (1 - u53) ^ (2 * m) * (1 + u53) ^ m <= 1).
  { clear - Hu. induction m as [|m IH]; [simpl; lra|]. replace (2 * S m)%nat with (S (S (2 * m))) by lia. cbn [pow].
    replace ((1 - u53) * ((1 - u53) * (1 - u53) ^ (2 * m)) * ((1 + u53) * (1 + u53) ^ m))
      with (((1 - u53) * (1 - u53) * (1 + u53)) * ((1 - u53) ^ (2 * m) * (1 + u53) ^ m)) by ring.
    pose proof (lo_pow (2 * m)). pose proof (hi_pow m).
    assert (U2 : u53 * u53 <= u53 * / 1000) by (apply Rmult_le_compat_l; lra).
    assert (U3 : 0 <= u53 * (u53 * u53)) by (apply Rmult_le_pos; [lra|]; apply Rmult_le_pos; lra).
    assert (U4 : 0 <= u53 * u53) by (apply Rmult_le_pos; lra).
    assert (U5 : u53 * (u53 * u53) <= u53 * / 1000) by (apply Rmult_le_compat_l; lra).
    apply Rle_trans with (1 * 1); [|lra].
    apply Rmult_le_compat; try lra. apply Rmult_le_pos; apply pow_le; lra. }
  split.
  - apply (Rmult_le_reg_r x); [exact Px|]. rewrite Rinv_l by lra.
    apply Rle_trans with (/ K * (1 - u53) ^ (2 * m) * (K * (1 + u53) ^ m)).
    + apply Rmult_le_compat_l; [|exact B]. pose proof (lo_pow (2 * m)).
      apply Rmult_le_pos; [left; now apply Rinv_0_lt_compat|lra].
    + replace (/ K * (1 - u53) ^ (2 * m) * (K * (1 + u53) ^ m)) with ((1 - u53) ^ (2 * m) * (1 + u53) ^ m) by (field; lra).
      exact E2.
  - apply (Rmult_le_reg_r x); [exact Px|]. rewrite Rinv_l by lra.
    apply Rle_trans with (/ K * (1 + u53) ^ (2 * m) * (K * (1 - u53) ^ m)).
    + replace (/ K * (1 + u53) ^ (2 * m) * (K * (1 - u53) ^ m)) with ((1 - u53) ^ m * (1 + u53) ^ (2 * m)) by (field; lra).
      exact E1.
    + apply Rmult_le_compat_l; [|exact A]. pose proof (hi_pow (2 * m)).
      apply Rmult_le_pos; [left; now apply Rinv_0_lt_compat|lra].
Qed.
Lemma pw_div m m' K K' x y : 0 <= K -> 0 < K' -> pw m K x -> pw m' K' y -> pw (m + 2 * m') (K / K') (x / y).
Proof.
  intros HK HK' Hx Hy. apply pw_mul; [exact HK|left; now apply Rinv_0_lt_compat|exact Hx|now apply pw_inv].
Qed.
Lemma pw_add m K K' x y : pw m K x -> pw m K' y -> pw m (K + K') (x + y).
Proof. intros (A & B) (A' & B'). unfold pw. lra. Qed.
Lemma pw_abs m K x : 0 <= K -> INR m * u53 <= / 2 -> pw m K x -> Rabs (x - K) <= 2 * (INR m * u53) * K.
Proof.
  intros HK Hm (A & B). pose proof (pow_lower m). pose proof (pow_upper m Hm). pose proof (pos_INR m). pose proof u_bounds.
  assert (0 <= INR m * u53) by (apply Rmult_le_pos; lra).
  apply Rabs_le. split.
  - assert (K * (1 - INR m * u53) <= K * (1 - u53) ^ m) by (apply Rmult_le_compat_l; lra). nra.
  - assert (K * (1 + u53) ^ m <= K * (1 + 2 * (INR m * u53))) by (apply Rmult_le_compat_l; lra). lra.
Qed.

(** ** one table *)
Lemma inv_big (n : nat) : (0 < n)%nat -> (Z.of_nat n <= 2 ^ 53)%Z -> bpow radix2 (-53) <= / INR n.
Proof.
  intros Hn Hb. change (bpow radix2 (-53)) with (/ IZR (2 ^ 53)). rewrite INR_IZR_INZ.
  apply Rinv_le; [apply IZR_lt; lia|]. apply IZR_le. lia.
Qed.
Lemma frac_big (c n : nat) : (0 < c)%nat -> (0 < n)%nat -> (Z.of_nat n <= 2 ^ 53)%Z -> bpow radix2 (-53) <= INR c / INR n.
Proof.
  intros Hc Hn Hb. apply Rle_trans with (1 := inv_big n Hn Hb). unfold Rdiv. rewrite <- (Rmult_1_l (/ INR n)) at 1.
  apply Rmult_le_compat_r; [left; apply Rinv_0_lt_compat, lt_0_INR, Hn|]. apply (le_INR 1). lia.
Qed.
Lemma normal_ge x e : (-1022 <= e)%Z -> bpow radix2 e <= x -> x = 0 \/ bpow radix2 (-1022) <= x.
Proof. intros He H. right. apply Rle_trans with (2 := H). now apply bpow_le. Qed.

Lemma f1_pw (t : tab) : (Z.of_nat (tp t + fp t + fn t) <= 2 ^ 53)%Z ->
  pw 8 (f1_value t) (B2R (f1_score (V:=f64) t)) /\
  (tp t <> 0%nat -> bpow radix2 (-107) <= B2R (f1_score (V:=f64) t)).
Proof.
  intros Hb. unfold f1_score, f1_value. destruct (Nat.eqb_spec (tp t) 0) as [E|E].
  - destruct n0_f64 as (-> & _). split; [|congruence]. unfold pw. lra.
  - destruct (frac_correct (tp t) (tp t + fp t)) as ((Fp & _ & Up) & Ep); [lia|lia|lia|].
    destruct (frac_correct (tp t) (tp t + fn t)) as ((Fr & _ & Ur) & Er); [lia|lia|lia|].
    cbv zeta.
    set (p := ndiv (V:=f64) (nofnat (tp t)) (nofnat (tp t + fp t))) in *.
    set (r := ndiv (V:=f64) (nofnat (tp t)) (nofnat (tp t + fn t))) in *.
    set (P := INR (tp t) / INR (tp t + fp t)) in *. set (R := INR (tp t) / INR (tp t + fn t)) in *.
    assert (BP : bpow radix2 (-53) <= P) by (apply frac_big; lia).
    assert (BR : bpow radix2 (-53) <= R) by (apply frac_big; lia).
    assert (H53 : 0 < bpow radix2 (-53)) by apply bpow_gt_0.
    assert (Pp : pw 1 P (B2R p)) by (rewrite Ep; apply pw_rnd; [lra|apply (normal_ge _ (-53)); [lia|exact BP]|apply pw_refl]).
    assert (Pr : pw 1 R (B2R r)) by (rewrite Er; apply pw_rnd; [lra|apply (normal_ge _ (-53)); [lia|exact BR]|apply pw_refl]).
    assert (Gp : bpow radix2 (-53) <= B2R p).
    { rewrite Ep. rewrite <- (rnd_gen (bpow radix2 (-53))); [now apply rnd_le|]. apply generic_format_bpow. vm_compute. discriminate. }
    assert (Gr : bpow radix2 (-53) <= B2R r).
    { rewrite Er. rewrite <- (rnd_gen (bpow radix2 (-53))); [now apply rnd_le|]. apply generic_format_bpow. vm_compute. discriminate. }
    destruct (f64_ofZ_exact 2) as (E2 & F2); [vm_compute; discriminate|].
    destruct (f_mul (nofZ 2) p) as (Fm & Em); [exact F2|exact Fp| |].
    { change (nofZ 2) with (f64_ofZ 2). rewrite E2. apply (nn_below _ 2); [lra|lia]. }
    change (nofZ 2) with (f64_ofZ 2) in *. rewrite E2, rnd_twice in Em.
    set (m := nmul (f64_ofZ 2) p) in *.
    assert (Pm : pw 1 (2 * P) (B2R m)) by (rewrite Em; destruct Pp; unfold pw; lra).
    assert (Gm : bpow radix2 (-106) <= B2R m * B2R r).
    { rewrite Em. change (-106)%Z with (-53 + -53)%Z. rewrite bpow_plus. nra. }
    destruct (f_mul m r) as (Fq & Eq); [exact Fm|exact Fr| |].
    { apply (nn_below _ 2); [rewrite Em; nra|lia]. }
    destruct (f_add p r) as (Fs & Es); [exact Fp|exact Fr| |].
    { apply (nn_below _ 2); [lra|lia]. }
    set (q := nmul m r) in *. set (s := nadd p r) in *.
    assert (Pq : pw 3 (2 * P * R) (B2R q)).
    { rewrite Eq. apply (pw_rnd 2); [nra|apply (normal_ge _ (-106)); [lia|exact Gm]|].
      apply (pw_mul 1 1); try assumption; lra. }
    assert (Ps : pw 2 (P + R) (B2R s)).
    { rewrite Es. apply (pw_rnd 1); [lra|apply (normal_ge _ (-53)); [lia|lra]|]. now apply pw_add. }
    assert (Hs : 0 < B2R s) by (apply (pw_pos' 2 (P + R)); [lra|exact Ps]).
    assert (Hs2 : B2R s <= 2).
    { rewrite Es. apply (nn_below (B2R p + B2R r) 2); [lra|lia]. }
    assert (Gq : bpow radix2 (-106) <= B2R q).
    { rewrite Eq. rewrite <- (rnd_gen (bpow radix2 (-106))); [now apply rnd_le|]. apply generic_format_bpow. vm_compute. discriminate. }
    assert (Gd : bpow radix2 (-107) <= B2R q / B2R s).
    { apply (Rmult_le_reg_r (B2R s)); [exact Hs|]. unfold Rdiv. rewrite Rmult_assoc, Rinv_l, Rmult_1_r by lra.
      apply Rle_trans with (bpow radix2 (-107) * 2); [apply Rmult_le_compat_l; [apply bpow_ge_0|exact Hs2]|].
      change 2 with (bpow radix2 1). rewrite <- bpow_plus. exact Gq. }
    assert (Hq : 0 <= B2R q <= B2R s).
    { rewrite Eq, Es. split; [rewrite <- rnd_0|]; apply rnd_le; rewrite Em; nra. }
    assert (Hd : 0 <= B2R q / B2R s <= 1).
    { split.
      - apply Rmult_le_pos; [lra|]. left. now apply Rinv_0_lt_compat.
      - apply (Rmult_le_reg_r (B2R s)); [assumption|]. unfold Rdiv.
        rewrite Rmult_assoc, Rinv_l, Rmult_1_r, Rmult_1_l by lra. lra. }
    destruct (f_div q s) as (Fd & Ed); [exact Fq|lra| |].
    { apply (nn_below _ 1); [lra|lia]. }
    rewrite Ed. split.
    + assert (Ev : 2 * P * R / (P + R) = 2 * INR (tp t) / (2 * INR (tp t) + INR (fp t) + INR (fn t))).
      { unfold P, R. rewrite !plus_INR. pose proof (pos_INR (fp t)). pose proof (pos_INR (fn t)).
        assert (0 < INR (tp t)) by (apply lt_0_INR; lia). field. repeat split; nra. }
      rewrite <- Ev. apply (pw_rnd 7).
      * apply Rmult_le_pos; [nra|left; apply Rinv_0_lt_compat; lra].
      * apply (normal_ge _ (-107)); [lia|exact Gd].
      * apply (pw_div 3 2); [nra|lra|exact Pq|exact Ps].
    + intros _. rewrite <- (rnd_gen (bpow radix2 (-107))); [now apply rnd_le|]. apply generic_format_bpow. vm_compute. discriminate.
Qed.
Lemma f1_value_nn t : 0 <= f1_value t.
Proof.
  unfold f1_value. destruct (tp t =? 0)%nat eqn:E; [lra|]. apply Nat.eqb_neq in E.
  assert (0 < INR (tp t)) by (apply lt_0_INR; lia). pose proof (pos_INR (fp t)). pose proof (pos_INR (fn t)).
  apply Rmult_le_pos; [lra|]. left. apply Rinv_0_lt_compat. lra.
Qed.

(** ** sums, in any association *)
Lemma np_sum_pw (e : Z) (l : list f64) s : (-1022 <= e <= 1000)%Z -> np_sum l s -> forall (K : list R) m, length K = length l ->
  (forall i, (i < length l)%nat -> is_finite (nth i l n0) = true /\ 0 <= nth i K 0 /\ 0 <= B2R (nth i l n0) /\
     (B2R (nth i l n0) = 0 \/ bpow radix2 e <= B2R (nth i l n0)) /\ pw m (nth i K 0) (B2R (nth i l n0))) ->
  fold_right Rplus 0 (map (fun x : f64 => B2R x) l) <= bpow radix2 1000 -> (Z.of_nat (length l) <= 2 ^ 53)%Z ->
  is_finite s = true /\ (B2R s = 0 \/ bpow radix2 e <= B2R s) /\ 0 <= fold_right Rplus 0 K /\
  pw (m + (length l - 1)) (fold_right Rplus 0 K) (B2R s) /\
  B2R s <= fold_right Rplus 0 (map (fun x : f64 => B2R x) l) * (1 + u53) ^ (length l - 1).
Proof.
  intros He. induction 1 as [|v|l1 l2 v1 v2 N1 N2 H1 IH1 H2 IH2]; intros K m HK H Hmax Hlen.
  - destruct n0_f64 as (E0 & F0). rewrite E0. destruct K; [|discriminate]. simpl. split; [exact F0|].
    split; [now left|]. split; [lra|]. unfold pw. lra.
  - destruct K as [|k [|]]; try discriminate. destruct (H 0%nat) as (F & Pk & P0 & Nz & P); [simpl; lia|]. simpl in *.
    rewrite Nat.add_0_r, Rplus_0_r. split; [exact F|]. split; [exact Nz|]. split; [exact Pk|]. split; [exact P|lra].
  - rewrite app_length in *. set (K1 := firstn (length l1) K). set (K2 := skipn (length l1) K).
    assert (E : K = K1 ++ K2) by (symmetry; apply firstn_skipn).
    assert (L1 : length K1 = length l1) by (unfold K1; rewrite firstn_length; lia).
    assert (L2 : length K2 = length l2) by (unfold K2; rewrite skipn_length; lia).
    assert (Fa : forall a b : list R, fold_right Rplus 0 (a ++ b) = fold_right Rplus 0 a + fold_right Rplus 0 b).
    { clear. induction a as [|x a IH]; intros b; simpl; [lra|]. rewrite IH. lra. }
    assert (Fp : forall a : list f64, (forall i, (i < length a)%nat -> 0 <= B2R (nth i a n0)) -> 0 <= fold_right Rplus 0 (map (fun x : f64 => B2R x) a)).
    { clear. induction a as [|x a IH]; intros Ha; simpl; [lra|]. pose proof (Ha 0%nat ltac:(simpl; lia)) as H0. cbn in H0.
      assert (0 <= fold_right Rplus 0 (map (fun x : f64 => B2R x) a)) by (apply IH; intros i Hi; apply (Ha (S i)); simpl; lia). lra. }
    rewrite map_app, Fa in Hmax. rewrite E in H |- *.
    assert (Q1 : forall i, (i < length l1)%nat -> is_finite (nth i l1 n0) = true /\ 0 <= nth i K1 0 /\ 0 <= B2R (nth i l1 n0) /\
       (B2R (nth i l1 n0) = 0 \/ bpow radix2 e <= B2R (nth i l1 n0)) /\ pw m (nth i K1 0) (B2R (nth i l1 n0))).
    { intros i Hi. pose proof (H i ltac:(lia)) as Hh. rewrite !app_nth1 in Hh by lia. exact Hh. }
    assert (Q2 : forall i, (i < length l2)%nat -> is_finite (nth i l2 n0) = true /\ 0 <= nth i K2 0 /\ 0 <= B2R (nth i l2 n0) /\
       (B2R (nth i l2 n0) = 0 \/ bpow radix2 e <= B2R (nth i l2 n0)) /\ pw m (nth i K2 0) (B2R (nth i l2 n0))).
    { intros i Hi. pose proof (H (length l1 + i)%nat ltac:(lia)) as Hh. rewrite app_nth2_plus in Hh.
      rewrite <- L1, app_nth2_plus in Hh. exact Hh. }
    pose proof (Fp l1 (fun i Hi => proj1 (proj2 (proj2 (Q1 i Hi))))) as S1.
    pose proof (Fp l2 (fun i Hi => proj1 (proj2 (proj2 (Q2 i Hi))))) as S2.
    set (T1 := fold_right Rplus 0 (map (fun x : f64 => B2R x) l1)) in *.
    set (T2 := fold_right Rplus 0 (map (fun x : f64 => B2R x) l2)) in *.
    assert (M1 : (1 <= length l1)%nat) by (destruct l1; [congruence|simpl; lia]).
    assert (M2 : (1 <= length l2)%nat) by (destruct l2; [congruence|simpl; lia]).
    destruct (IH1 K1 m L1 Q1) as (F1 & Z1 & P1 & W1 & U1); [lra|lia|].
    destruct (IH2 K2 m L2 Q2) as (F2 & Z2 & P2 & W2 & U2); [lra|lia|].
    set (n1' := (length l1 - 1)%nat) in *. set (n2' := (length l2 - 1)%nat) in *.
    assert (V1 : 0 <= B2R v1) by (destruct Z1; [lra|]; apply Rle_trans with (2 := H0); apply bpow_ge_0).
    assert (V2 : 0 <= B2R v2) by (destruct Z2; [lra|]; apply Rle_trans with (2 := H0); apply bpow_ge_0).
    assert (Zs : B2R v1 + B2R v2 = 0 \/ bpow radix2 e <= B2R v1 + B2R v2) by (destruct Z1, Z2; lra).
    assert (Up : B2R v1 + B2R v2 <= (T1 + T2) * (1 + u53) ^ (n1' + n2')).
    { assert (A1 : (1 + u53) ^ n1' <= (1 + u53) ^ (n1' + n2')).
      { rewrite pow_add. pose proof (hi_pow n1'). pose proof (hi_pow n2'). rewrite <- (Rmult_1_r ((1 + u53) ^ n1')) at 1. apply Rmult_le_compat_l; lra. }
      assert (A2 : (1 + u53) ^ n2' <= (1 + u53) ^ (n1' + n2')).
      { rewrite pow_add. pose proof (hi_pow n1'). pose proof (hi_pow n2'). rewrite <- (Rmult_1_l ((1 + u53) ^ n2')) at 1. apply Rmult_le_compat_r; lra. }
      rewrite Rmult_plus_distr_r. apply Rplus_le_compat.
      - apply Rle_trans with (1 := U1). apply Rmult_le_compat_l; lra.
      - apply Rle_trans with (1 := U2). apply Rmult_le_compat_l; lra. }
    assert (Hpow : (1 + u53) ^ (n1' + n2' + 1) <= 4).
    { assert (Hu : INR (n1' + n2' + 1) * u53 <= 1).
      { rewrite INR_IZR_INZ. apply Rle_trans with (IZR (2 ^ 53) * u53).
        - apply Rmult_le_compat_r; [left; apply u_bounds|]. apply IZR_le. unfold n1', n2'. lia.
        - right. change (IZR (2 ^ 53)) with (bpow radix2 53). unfold u53. rewrite <- bpow_plus. reflexivity. }
      apply Rle_trans with (exp (INR (n1' + n2' + 1) * u53)).
      - generalize (n1' + n2' + 1)%nat as k. clear. intros k. induction k as [|k IH]; [simpl; rewrite Rmult_0_l, exp_0; lra|].
        rewrite S_INR, Rmult_plus_distr_r, Rmult_1_l, exp_plus. simpl. rewrite Rmult_comm. pose proof u_bounds.
        apply Rmult_le_compat; [apply pow_le; lra|lra|exact IH|]. pose proof (exp_ineq1_le u53). lra.
      - apply Rle_trans with (exp 1); [destruct Hu as [Hu|Hu]; [left; now apply exp_increasing|right; now rewrite Hu]|].
        pose proof exp_le_3. lra. }
    assert (Bs : B2R v1 + B2R v2 <= bpow radix2 1003).
    { apply Rle_trans with (1 := Up). apply Rle_trans with (bpow radix2 1000 * 4).
      - apply Rmult_le_compat; try lra; [apply pow_le; pose proof u_bounds; lra|].
        apply Rle_trans with (2 := Hpow). rewrite (pow_add _ _ 1). pose proof (hi_pow (n1' + n2')). pose proof u_bounds. simpl. nra.
      - change 4 with (bpow radix2 2). rewrite <- bpow_plus. apply bpow_le. lia. }
    assert (Rb : Rabs (rnd (B2R v1 + B2R v2)) < bpow radix2 1024).
    { assert (R0 : 0 <= rnd (B2R v1 + B2R v2)) by (rewrite <- rnd_0; apply rnd_le; lra).
      rewrite Rabs_pos_eq by exact R0. apply Rle_lt_trans with (rnd (bpow radix2 1003)); [now apply rnd_le|].
      rewrite rnd_gen by (apply generic_format_bpow; vm_compute; discriminate). apply bpow_lt. lia. }
    destruct (f_add v1 v2 F1 F2 Rb) as (Fs & Es). rewrite Es. split; [exact Fs|].
    rewrite Fa. split; [|split; [lra|split]].
    + destruct Zs as [Zs|Zs]; [left; rewrite Zs; apply rnd_0|right].
      rewrite <- (rnd_gen (bpow radix2 e)); [now apply rnd_le|]. apply generic_format_bpow. unfold SpecFloat.fexp, SpecFloat.emin, FLT_exp; lia.
    + replace (m + (length l1 + length l2 - 1))%nat with (S (m + (n1' + n2'))) by (unfold n1', n2'; lia).
      apply pw_rnd; [lra|destruct Zs as [Zs|Zs]; [now left|exact (normal_ge _ e (proj1 He) Zs)]|]. apply pw_add.
      * apply (pw_weak (m + n1')); [lia|exact P1|exact W1].
      * apply (pw_weak (m + n2')); [lia|exact P2|exact W2].
    + replace (length l1 + length l2 - 1)%nat with (n1' + n2' + 1)%nat by (unfold n1', n2'; lia).
      rewrite map_app, Fa. fold T1 T2.
      assert (R1 : pw 1 (B2R v1 + B2R v2) (rnd (B2R v1 + B2R v2))) by (apply pw_rnd; [lra|destruct Zs as [Zs|Zs]; [now left|exact (normal_ge _ e (proj1 He) Zs)]|apply pw_refl]).
      destruct R1 as (_ & R1). apply Rle_trans with (1 := R1). rewrite (pow_add _ _ 1), <- Rmult_assoc.
      apply Rmult_le_compat_r; [apply pow_le; pose proof u_bounds; lra|exact Up].
Qed.

Lemma sum_le (l : list f64) b : 0 <= b -> (forall i, (i < length l)%nat -> B2R (nth i l n0) <= b) ->
  fold_right Rplus 0 (map (fun x : f64 => B2R x) l) <= INR (length l) * b.
Proof.
  intros Hb. induction l as [|x l IH]; intros H; [simpl; lra|].
  pose proof (H 0%nat ltac:(simpl; lia)) as H0. cbn in H0.
  assert (fold_right Rplus 0 (map (fun x : f64 => B2R x) l) <= INR (length l) * b) by (apply IH; intros i Hi; apply (H (S i)); simpl; lia).
  cbn [length map fold_right]. rewrite S_INR. lra.
Qed.
Lemma avg_pw (l : list f64) s (K : list R) m b : np_sum l s -> length K = length l -> (1 <= length l)%nat ->
  (Z.of_nat (length l) <= 2 ^ 53)%Z -> (1 <= b <= 2 ^ 53)%Z ->
  (forall i, (i < length l)%nat -> is_finite (nth i l n0) = true /\ 0 <= nth i K 0 /\ 0 <= B2R (nth i l n0) <= bpow radix2 54 /\
     (B2R (nth i l n0) = 0 \/ bpow radix2 (-107) <= B2R (nth i l n0)) /\ pw m (nth i K 0) (B2R (nth i l n0))) ->
  pw (m + length l) (fold_right Rplus 0 K / IZR b) (B2R (ndiv s (nofZ b))).
Proof.
  intros Hs HK Hne Hlen Hb H.
  assert (Hl : INR (length l) <= bpow radix2 53).
  { rewrite INR_IZR_INZ. change (bpow radix2 53) with (IZR (2 ^ 53)). apply IZR_le. exact Hlen. }
  assert (Hmax : fold_right Rplus 0 (map (fun x : f64 => B2R x) l) <= bpow radix2 107).
  { apply Rle_trans with (INR (length l) * bpow radix2 54).
    - apply sum_le; [apply bpow_ge_0|]. intros i Hi. now apply H.
    - change 107%Z with (53 + 54)%Z. rewrite bpow_plus. apply Rmult_le_compat_r; [apply bpow_ge_0|exact Hl]. }
  destruct (np_sum_pw (-107) l s ltac:(lia) Hs K m HK) as (Fs & Zs & PK & W & U).
  - intros i Hi. destruct (H i Hi) as (A & B & C & D & E). exact (conj A (conj B (conj (proj1 C) (conj D E)))).
  - apply Rle_trans with (1 := Hmax). apply bpow_le. lia.
  - exact Hlen.
  - destruct (f64_ofZ_exact b) as (Eb & Fb); [lia|].
    assert (Pb : 1 <= IZR b <= bpow radix2 53).
    { change (bpow radix2 53) with (IZR (2 ^ 53)). split; apply IZR_le; lia. }
    assert (Ib : bpow radix2 (-53) <= / IZR b <= 1).
    { split.
      - change (-53)%Z with (- (53))%Z. rewrite bpow_opp. apply Rinv_le; lra.
      - rewrite <- Rinv_1. apply Rinv_le; lra. }
    pose proof (bpow_gt_0 radix2 (-53)) as G53. pose proof (bpow_gt_0 radix2 109) as G109.
    assert (Ps : 0 <= B2R s) by (destruct Zs as [->|Zs]; [lra|apply Rle_trans with (2 := Zs); apply bpow_ge_0]).
    assert (Zq : B2R s / IZR b = 0 \/ bpow radix2 (-1022) <= B2R s / IZR b).
    { destruct Zs as [->|Zs]; [left; unfold Rdiv; ring|]. apply (normal_ge _ (-160)); [lia|].
      change (-160)%Z with (-107 + -53)%Z. rewrite bpow_plus. apply Rmult_le_compat; try apply bpow_ge_0; lra. }
    assert (Hp4 : (1 + u53) ^ (length l - 1) <= 3).
    { apply Rle_trans with (exp (INR (length l - 1) * u53)).
      - generalize (length l - 1)%nat as k. clear. intros k. induction k as [|k IH]; [simpl; rewrite Rmult_0_l, exp_0; lra|].
        rewrite S_INR, Rmult_plus_distr_r, Rmult_1_l, exp_plus. simpl. rewrite Rmult_comm. pose proof u_bounds.
        apply Rmult_le_compat; [apply pow_le; lra|lra|exact IH|]. pose proof (exp_ineq1_le u53). lra.
      - apply Rle_trans with (exp 1); [|apply exp_le_3].
        assert (Hu : INR (length l - 1) * u53 <= 1).
        { apply Rle_trans with (bpow radix2 53 * u53).
          - apply Rmult_le_compat_r; [left; apply u_bounds|]. apply Rle_trans with (2 := Hl). apply le_INR. lia.
          - right. unfold u53. rewrite <- bpow_plus. reflexivity. }
        destruct Hu as [Hu|Hu]; [left; now apply exp_increasing|right; now rewrite Hu]. }
    assert (Bs : B2R s <= bpow radix2 109).
    { apply Rle_trans with (1 := U). apply Rle_trans with (bpow radix2 107 * 4).
      - pose proof (hi_pow (length l - 1)). apply Rle_trans with (bpow radix2 107 * (1 + u53) ^ (length l - 1)).
        + apply Rmult_le_compat_r; lra.
        + apply Rmult_le_compat_l; [apply bpow_ge_0|lra].
      - change 4 with (bpow radix2 2). rewrite <- bpow_plus. apply bpow_le. lia. }
    assert (Q0 : 0 <= B2R s / IZR b) by (apply Rmult_le_pos; lra).
    assert (Q1 : B2R s / IZR b <= bpow radix2 109).
    { rewrite <- (Rmult_1_r (bpow radix2 109)). apply Rmult_le_compat; lra. }
    destruct (f_div s (nofZ b)) as (Fd & Ed); [exact Fs| | |].
    { change (nofZ b) with (f64_ofZ b). rewrite Eb. lra. }
    { change (nofZ b) with (f64_ofZ b). rewrite Eb.
      rewrite Rabs_pos_eq by (rewrite <- rnd_0; now apply rnd_le).
      apply Rle_lt_trans with (rnd (bpow radix2 109)); [now apply rnd_le|].
      rewrite rnd_gen by (apply generic_format_bpow; vm_compute; discriminate). apply bpow_lt. lia. }
    rewrite Ed. change (nofZ b) with (f64_ofZ b). rewrite Eb.
    replace (m + length l)%nat with (S (m + (length l - 1) + 2 * 0)) by lia.
    apply pw_rnd; [apply Rmult_le_pos; lra|exact Zq|]. apply pw_div; [exact PK|lra|exact W|apply pw_refl].
Qed.

Lemma macro_pw (ts : list tab) (r : f64) : ts <> [] -> (Z.of_nat (length ts) <= 2 ^ 53)%Z ->
  (forall t, In t ts -> (Z.of_nat (tp t + fp t + fn t) <= 2 ^ 53)%Z) -> f1_macro ts r ->
  pw (8 + length ts) (fold_right Rplus 0 (map f1_value ts) / INR (length ts)) (B2R r).
Proof.
  intros Hne Hb Ht (s & Hs & ->).
  assert (L : (1 <= length ts)%nat) by (destruct ts; [congruence|simpl; lia]).
  rewrite INR_IZR_INZ. replace (length ts) with (length (map (f1_score (V:=f64)) ts)) by apply map_length.
  unfold nofnat. rewrite map_length. rewrite <- (map_length (f1_score (V:=f64)) ts) at 1.
  apply avg_pw; [exact Hs|now rewrite !map_length|rewrite map_length; lia|rewrite map_length; lia|lia|].
  intros i Hi. rewrite map_length in Hi.
  rewrite (nth_map_in _ _ _ _ (Tab 0 0 0 0)) by assumption. rewrite (nth_map_in _ _ _ _ (Tab 0 0 0 0)) by assumption.
  set (t := nth i ts (Tab 0 0 0 0)). assert (Bt : (Z.of_nat (tp t + fp t + fn t) <= 2 ^ 53)%Z) by (apply Ht, nth_In; exact Hi).
  destruct (f1_range64 t Bt) as (F & R). destruct (f1_pw t Bt) as (P & G).
  split; [exact F|]. split; [apply f1_value_nn|]. split; [|split; [|exact P]].
  - split; [lra|]. apply Rle_trans with (1 := proj2 R). change 1 with (bpow radix2 0). apply bpow_le. lia.
  - destruct (Nat.eq_dec (tp t) 0) as [E|E]; [left|right; now apply G].
    unfold f1_score. rewrite E. apply n0_f64.
Qed.
Lemma weighted_pw (ts : list tab) (r : f64) : (Z.of_nat (length ts) <= 2 ^ 53)%Z ->
  (forall t, In t ts -> (Z.of_nat (tp t + fp t + fn t) <= 2 ^ 53)%Z) ->
  (Z.of_nat (sum_nat (map tab_weight ts)) <= 2 ^ 53)%Z -> f1_weighted ts (Ok r) ->
  pw (9 + length ts) (fold_right Rplus 0 (map (fun t => f1_value t * INR (fn t + tp t)) ts) /
                      INR (sum_nat (map (fun t => fn t + tp t)%nat ts))) (B2R r).
Proof.
  intros Hl Ht Hb. unfold f1_weighted. destruct (Nat.eqb_spec (sum_nat (map tab_weight ts)) 0) as [E|E]; [discriminate|].
  intros (s & Hs & Hr). assert (Er : r = ndiv s (nofnat (sum_nat (map tab_weight ts)))) by congruence. rewrite Er. clear Hr Er.
  assert (L : (1 <= length ts)%nat) by (destruct ts; [exfalso; apply E; reflexivity|simpl; lia]).
  rewrite INR_IZR_INZ. change (map (fun t => fn t + tp t)%nat ts) with (map tab_weight ts).
  unfold nofnat at 1. rewrite <- (map_length (fun t => nmul (f1_score (V:=f64) t) (nofnat (tab_weight t))) ts).
  apply avg_pw; [exact Hs|now rewrite !map_length|rewrite map_length; lia|rewrite map_length; lia|lia|].
  intros i Hi. rewrite map_length in Hi.
  rewrite (nth_map_in _ _ _ _ (Tab 0 0 0 0)) by assumption. rewrite (nth_map_in _ _ _ _ (Tab 0 0 0 0)) by assumption.
  set (t := nth i ts (Tab 0 0 0 0)). assert (Bt : (Z.of_nat (tp t + fp t + fn t) <= 2 ^ 53)%Z) by (apply Ht, nth_In; exact Hi).
  destruct (f1_range64 t Bt) as (F & R). destruct (f1_pw t Bt) as (P & G).
  assert (Wb : (0 <= Z.of_nat (tab_weight t) <= 2 ^ 53)%Z) by (unfold tab_weight; lia).
  destruct (f64_ofZ_exact (Z.of_nat (tab_weight t))) as (Ew & Fw); [lia|].
  assert (Iw : 0 <= IZR (Z.of_nat (tab_weight t)) <= IZR (2 ^ 53)) by (split; apply IZR_le; lia).
  assert (Eu : B2R (nofnat (V:=f64) (tab_weight t)) = IZR (Z.of_nat (tab_weight t))) by exact Ew.
  assert (Fu : is_finite (nofnat (V:=f64) (tab_weight t)) = true) by exact Fw.
  assert (Rg : 0 <= B2R (f1_score (V:=f64) t) * IZR (Z.of_nat (tab_weight t)) <= IZR (2 ^ 53)).
  { split; [apply Rmult_le_pos; lra|]. apply Rle_trans with (1 * IZR (2 ^ 53)); [apply Rmult_le_compat; lra|lra]. }
  destruct (nn_below _ _ Rg ltac:(lia)) as (N1 & N2).
  destruct (f_mul (f1_score t) (nofnat (tab_weight t)) F Fu) as (Fm & Em); [now rewrite Eu|].
  rewrite Em, Eu.
  assert (Zp : B2R (f1_score (V:=f64) t) * IZR (Z.of_nat (tab_weight t)) = 0 \/
               bpow radix2 (-107) <= B2R (f1_score (V:=f64) t) * IZR (Z.of_nat (tab_weight t))).
  { destruct (Nat.eq_dec (tp t) 0) as [E0|E0].
    - left. unfold f1_score. rewrite E0. cbn [Nat.eqb]. destruct n0_f64 as (-> & _). ring.
    - right. pose proof (G E0). assert (1 <= IZR (Z.of_nat (tab_weight t))) by (apply IZR_le; unfold tab_weight; lia).
      pose proof (bpow_ge_0 radix2 (-107)). rewrite <- (Rmult_1_r (bpow radix2 (-107))). apply Rmult_le_compat; lra. }
  split; [exact Fm|]. pose proof (f1_value_nn t) as Nn. pose proof (pos_INR (fn t + tp t)) as Pi.
  split; [now apply Rmult_le_pos|]. split; [|split].
  - split; [apply N1|]. apply Rle_trans with (1 := proj2 N1). change (IZR (2 ^ 53)) with (bpow radix2 53). apply bpow_le. lia.
  - destruct Zp as [Zp|Zp]; [left; rewrite Zp; apply rnd_0|right].
    rewrite <- (rnd_gen (bpow radix2 (-107))); [now apply rnd_le|]. apply generic_format_bpow. vm_compute. discriminate.
  - apply (pw_rnd 8); [now apply Rmult_le_pos| |].
    + destruct Zp as [Zp|Zp]; [now left|now apply (normal_ge _ (-107))].
    + rewrite INR_IZR_INZ in Pi |- *. apply (pw_mul 8 0); [exact Nn|exact Pi|exact P|apply pw_refl].
Qed.
