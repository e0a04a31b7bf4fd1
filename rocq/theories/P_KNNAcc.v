(** The accuracy of [score] in float64: rounding errors of the accumulated value. *)
From Coq Require Import String.
From Coq Require Import ZArith Reals Lra List Arith Lia Bool Permutation.
From Flocq Require Import Core BinarySingleNaN.
From Verif Require Import Py Num NumT Arr S_KNN M_KNN P_KNN P_KNN2 P_F64 S_LSFloat S_LSAcc P_LSFloat P_LSAcc.
Import ListNotations.
Local Open Scope nat_scope.
Local Open Scope R_scope.

Section Acc.
  Variable n : nat.
  Hypothesis Hn : (0 < n)%nat.
  Hypothesis Hb : (Z.of_nat n <= 2 ^ 50)%Z.

  Let a : f64 := ndiv n1 (nofnat n).

  Lemma n_real : 1 <= INR n <= bpow radix2 50.
  Proof.
    split; [replace 1 with (INR 1) by reflexivity; apply le_INR; lia|].
    rewrite INR_IZR_INZ. apply IZR_le in Hb. exact Hb.
  Qed.

  Lemma inv_n : bpow radix2 (-50) <= / INR n <= 1.
  Proof.
    destruct n_real as (A & B). split.
    - change (-50)%Z with (- (50))%Z. rewrite bpow_opp. apply Rinv_le; [lra|exact B].
    - replace 1 with (/ 1) by lra. apply Rinv_le; lra.
  Qed.

  Lemma small_norm x : bpow radix2 (-60) <= x -> exists e, Rabs e <= u53 /\ rnd x = x * (1 + e).
  Proof.
    intros H. apply rnd_norm. rewrite Rabs_pos_eq.
    - apply Rle_trans with (bpow radix2 (-60)); [apply bpow_le; lia|exact H].
    - apply Rle_trans with (bpow radix2 (-60)); [apply bpow_ge_0|exact H].
  Qed.

  Lemma step_val : is_finite a = true /\ Rabs (B2R a - / INR n) <= u53 * / INR n.
  Proof.
    destruct (frac_correct 1 n ltac:(lia) Hn ltac:(lia)) as ((F & _) & E). change (nofnat (V:=f64) 1) with (n1 (V:=f64)) in *. fold a in F, E.
    split; [exact F|]. destruct inv_n as (I & J).
    destruct (small_norm (INR 1 / INR n)) as (e & He & Er).
    { cbn [INR]. unfold Rdiv. rewrite Rmult_1_l. apply Rle_trans with (bpow radix2 (-50)); [apply bpow_le; lia|exact I]. }
    rewrite E, Er. cbn [INR]. unfold Rdiv. rewrite Rmult_1_l. replace (/ INR n * (1 + e) - / INR n) with (e * / INR n) by ring.
    rewrite Rabs_mult. rewrite (Rabs_pos_eq (/ INR n)) by (pose proof (bpow_gt_0 radix2 (-50)); lra).
    apply Rmult_le_compat_r; [pose proof (bpow_gt_0 radix2 (-50)); lra|exact He].
  Qed.

  Lemma add_fin (x y : f64) : is_finite x = true -> is_finite y = true -> 0 <= B2R x + B2R y <= 2 ->
    is_finite (nadd x y) = true /\ B2R (nadd x y) = rnd (B2R x + B2R y).
  Proof.
    intros Fx Fy H. change (nadd x y) with (Bplus mode_NE x y).
    pose proof (Bplus_correct 53 1024 prec53 emax1024 mode_NE x y Fx Fy) as C.
    fold (rnd (B2R x + B2R y)) in C. rewrite Rlt_bool_true in C.
    - destruct C as (C1 & C2 & _). split; [exact C2|exact C1].
    - apply Rle_lt_trans with 2; [|apply bpow1024_big]. rewrite Rabs_pos_eq.
      + rewrite <- (rnd_Z 2) by (cbn; lia). now apply rnd_le.
      + rewrite <- rnd_0. now apply rnd_le.
  Qed.

  Lemma u53_val : u53 = bpow radix2 (-53). Proof. reflexivity. Qed.
  Lemma u_scale : u53 * bpow radix2 50 = / 8.
  Proof. unfold u53. rewrite <- bpow_plus. change (-53 + 50)%Z with (-3)%Z. cbn. lra. Qed.

  Lemma acc_close c : (c <= n)%nat ->
    is_finite (acc_rep (V:=f64) n c) = true /\ 0 <= B2R (acc_rep (V:=f64) n c) <= 3 / 2 /\
    Rabs (B2R (acc_rep (V:=f64) n c) - INR c / INR n) <= INR c * (2 * u53).
  Proof.
    destruct n_real as (N1 & N2). destruct inv_n as (I1 & I2). destruct step_val as (Fa & Ea). pose proof u53_pos as U. pose proof u_scale as US.
    pose proof (bpow_gt_0 radix2 (-50)) as P50.
    induction c as [|c IH]; intros Hc.
    - cbn [acc_rep INR]. destruct n0_f64 as (E & F). split; [exact F|]. rewrite E. unfold Rdiv. rewrite !Rmult_0_l, Rminus_0_r, Rabs_R0. lra.
    - destruct (IH ltac:(lia)) as (F & R0 & Er). cbn [acc_rep]. fold a. set (s := acc_rep n c) in *.
      assert (Cn : INR c + 1 <= INR n) by (rewrite <- S_INR; apply le_INR; lia).
      pose proof (pos_INR c) as Pc.
      assert (Cb : INR c * (2 * u53) <= / 4). { apply Rle_trans with (INR n * (2 * u53)); [apply Rmult_le_compat_r; lra|].
        apply Rle_trans with (bpow radix2 50 * (2 * u53)); [apply Rmult_le_compat_r; lra|]. lra. }
      assert (Cd : INR c / INR n + / INR n <= 1).
      { replace (INR c / INR n + / INR n) with ((INR c + 1) * / INR n) by (unfold Rdiv; ring).
        apply Rmult_le_reg_r with (INR n); [lra|]. rewrite Rmult_assoc, Rinv_l by lra. lra. }
      apply Rabs_le_inv in Ea. apply Rabs_le_inv in Er.
      assert (Un : u53 * / INR n <= u53) by (rewrite <- (Rmult_1_r u53) at 2; apply Rmult_le_compat_l; lra).
      assert (Lo : / 2 * / INR n <= B2R a).
      { apply Rle_trans with (/ INR n - u53 * / INR n); [|lra]. replace (/ INR n - u53 * / INR n) with ((1 - u53) * / INR n) by ring.
        apply Rmult_le_compat_r; lra. }
      assert (Up : B2R s + B2R a <= 1.4) by lra.
      destruct (add_fin s a F Fa ltac:(lra)) as (Fs & Es). split; [exact Fs|].
      destruct (small_norm (B2R s + B2R a)) as (e & He & Ee).
      { apply Rle_trans with (/ 2 * / INR n); [|lra]. apply Rle_trans with (/ 2 * bpow radix2 (-50)); [|lra].
        replace (/ 2) with (bpow radix2 (-1)) by (cbn; lra). rewrite <- bpow_plus. apply bpow_le. lia. }
      rewrite Es, Ee. apply Rabs_le_inv in He.
      assert (X : Rabs ((B2R s + B2R a) * e) <= 1.4 * u53).
      { rewrite Rabs_mult. apply Rmult_le_compat; [apply Rabs_pos|apply Rabs_pos| |apply Rabs_le; lra]. rewrite Rabs_pos_eq; lra. }
      apply Rabs_le_inv in X. replace ((B2R s + B2R a) * (1 + e)) with (B2R s + B2R a + (B2R s + B2R a) * e) by ring.
      split; [split|].
      + replace (B2R s + B2R a + (B2R s + B2R a) * e) with ((B2R s + B2R a) * (1 + e)) by ring. apply Rmult_le_pos; lra.
      + lra.
      + rewrite S_INR. replace ((INR c + 1) / INR n) with (INR c / INR n + / INR n) by (unfold Rdiv; ring).
        apply Rabs_le.
        assert (Un2 : u53 * / INR n <= 0.6 * u53 \/ n = 1%nat).
        { destruct (Nat.eq_dec n 1) as [->|H1]; [now right|left]. rewrite (Rmult_comm 0.6). apply Rmult_le_compat_l; [lra|].
          assert (2 <= INR n) by (replace 2 with (INR 2) by (cbn; lra); apply le_INR; lia).
          apply Rle_trans with (/ 2); [apply Rinv_le; lra|lra]. }
        destruct Un2 as [Un2|H1]; [lra|].
        (* n = 1: one addition to 0 *)
        assert (c = 0)%nat by lia. subst c. cbn [INR] in *. unfold s in *. cbn [acc_rep] in *. destruct n0_f64 as (E0 & _). rewrite E0 in *.
        assert (Y : (0 + B2R a) * e = rnd (0 + B2R a) - (0 + B2R a)) by (rewrite Ee; ring).
        rewrite Y, !Rplus_0_l.
        assert (G : rnd (B2R a) = B2R a) by (apply rnd_gen, generic_format_B2R). rewrite G.
        unfold Rdiv. rewrite Rmult_0_l. lra.
  Qed.

  Lemma acc_step c : (c < n)%nat -> B2R (acc_rep (V:=f64) n c) < B2R (acc_rep (V:=f64) n (S c)).
  Proof.
    destruct n_real as (N1 & N2). destruct inv_n as (I1 & I2). destruct step_val as (Fa & Ea). pose proof u53_pos as U. pose proof u_scale as US.
    pose proof (bpow_gt_0 radix2 (-50)) as P50. intros Hc.
    destruct (acc_close c ltac:(lia)) as (F & R0 & Er). cbn [acc_rep]. fold a. set (s := acc_rep n c) in *.
    apply Rabs_le_inv in Ea.
    assert (Lo : / 2 * / INR n <= B2R a).
    { apply Rle_trans with (/ INR n - u53 * / INR n); [|lra]. replace (/ INR n - u53 * / INR n) with ((1 - u53) * / INR n) by ring.
      apply Rmult_le_compat_r; lra. }
    assert (Hi : B2R a <= 1.01 * / INR n).
    { apply Rle_trans with (/ INR n + u53 * / INR n); [lra|]. replace (/ INR n + u53 * / INR n) with ((1 + u53) * / INR n) by ring.
      apply Rmult_le_compat_r; lra. }
    assert (Cn : INR c + 1 <= INR n) by (rewrite <- S_INR; apply le_INR; lia).
    assert (Cb : INR c * (2 * u53) <= / 4). { apply Rle_trans with (INR n * (2 * u53)); [apply Rmult_le_compat_r; lra|].
      apply Rle_trans with (bpow radix2 50 * (2 * u53)); [apply Rmult_le_compat_r; lra|]. lra. }
    assert (Cd : INR c / INR n + / INR n <= 1).
    { replace (INR c / INR n + / INR n) with ((INR c + 1) * / INR n) by (unfold Rdiv; ring).
      apply Rmult_le_reg_r with (INR n); [lra|]. rewrite Rmult_assoc, Rinv_l by lra. lra. }
    apply Rabs_le_inv in Er.
    destruct (add_fin s a F Fa ltac:(lra)) as (Fs & Es).
    destruct (small_norm (B2R s + B2R a)) as (e & He & Ee).
    { apply Rle_trans with (/ 2 * / INR n); [|lra]. apply Rle_trans with (/ 2 * bpow radix2 (-50)); [|lra].
      replace (/ 2) with (bpow radix2 (-1)) by (cbn; lra). rewrite <- bpow_plus. apply bpow_le. lia. }
    rewrite Es, Ee. apply Rabs_le_inv in He.
    assert (X : Rabs ((B2R s + B2R a) * e) <= 1.5 * u53).
    { rewrite Rabs_mult. apply Rmult_le_compat; [apply Rabs_pos|apply Rabs_pos| |apply Rabs_le; lra]. rewrite Rabs_pos_eq; lra. }
    apply Rabs_le_inv in X.
    assert (B50 : u53 = bpow radix2 (-50) * / 8).
    { unfold u53. replace (/ 8) with (bpow radix2 (-3)) by (cbn; lra). rewrite <- bpow_plus. reflexivity. }
    replace ((B2R s + B2R a) * (1 + e)) with (B2R s + B2R a + (B2R s + B2R a) * e) by ring. lra.
  Qed.

  Lemma acc_lt c c' : (c < c')%nat -> (c' <= n)%nat -> B2R (acc_rep (V:=f64) n c) < B2R (acc_rep (V:=f64) n c').
  Proof.
    intros H H'. induction c' as [|c' IH]; [lia|]. destruct (Nat.eq_dec c c') as [->|Hne]; [apply acc_step; lia|].
    apply Rlt_trans with (B2R (acc_rep (V:=f64) n c')); [apply IH; lia|apply acc_step; lia].
  Qed.
End Acc.
