(** Property C158: how far NICDM in float64 is from its formula
    (local_scaling.py:419-429, 477-531). *)
From Coq Require Import String.
From Coq Require Import ZArith Reals Lra List Arith Lia Bool Permutation.
From Flocq Require Import Core BinarySingleNaN Relative Plus_error.
From Verif Require Import Py Num NumT Arr Sort Conc S_Neighbors S_LS M_IO M_Hubness M_SNN M_LS.
From Verif Require Import P_LS P_LS2 P_LS3 P_F64 S_LSFloat P_LSFloat Properties_LSFloat P_LSAcc Properties_LSAcc S_NicdmAcc P_NicdmAcc.
Import ListNotations.
Local Open Scope nat_scope.
Local Open Scope R_scope.

Lemma finite_choice {A : Type} (n : nat) (P : nat -> list A -> Prop) :
  (forall i, (i < n)%nat -> exists s, P i s) -> exists f, forall i, (i < n)%nat -> P i (f i).
Proof.
  induction n as [|m IH]; intros H; [exists (fun _ => []); intros; lia|].
  destruct IH as (f & Hf); [intros i Hi; apply H; lia|]. destruct (H m ltac:(lia)) as (s & Hs).
  exists (fun i => if (i =? m)%nat then s else f i). intros i Hi. destruct (Nat.eqb_spec i m) as [->|]; [exact Hs|]. apply Hf. lia.
Qed.

(** ** C158: if all distances between different objects are between 2^-300 and
    2^300, NICDM in float64 has a relative error of at most 750 eps, where eps
    bounds the errors of np.sum, np.log and np.exp.  R i is the mean distance of
    object i to its k nearest neighbours, g the geometric mean of all R i. *)
Theorem C158_nicdm_accuracy :
  forall vexp vln vsum eps part (D : arr2 f64) n k test cpu n_jobs res,
    bpow radix2 (-53) <= eps <= bpow radix2 (-20) ->
    sum_close eps n vsum -> ln_close eps vln -> exp_accurate eps vexp -> part_ok part ->
    nrow D = n -> ncol D = n -> (Z.of_nat n <= 2 ^ 53)%Z ->
    (forall i j, (i < n)%nat -> (j < n)%nat -> i <> j -> nisfin (at2 D i j) = true /\ within (-300) 300 (at2 D i j)) ->
    (0 < k < length (training n test))%nat ->
    nicdm vexp vln vsum part D (Z.of_nat k) "distance" test cpu n_jobs res ->
    exists L (near : nat -> list f64), res = Ok L /\ nrow L = n /\ ncol L = n /\
      (forall i, (i < n)%nat -> k_smallest (others D (training n test) i) k (near i)) /\
      (forall i, (i < n)%nat -> neq (at2 L i i) n0 = true) /\
      let R i := total (map B2R (near i)) / INR k in
      let g := exp (total (map (fun i => ln (R i)) (seq 0 n)) / INR n) in
      forall i j, (i < j)%nat -> (j < n)%nat ->
        let formula := g * B2R (at2 D i j) / sqrt (R i * R j) in
        0 < formula /\
        nisfin (at2 L i j) = true /\ Rabs (B2R (at2 L i j) - formula) <= 750 * eps * formula /\
        nisfin (at2 L j i) = true /\ Rabs (B2R (at2 L j i) - formula) <= 750 * eps * formula.
Proof.
  intros vexp vln vsum eps part D n k test cpu nj res He Hs Hl Hx PO Hr Hc Hn HD Hk H.
  assert (Ltr : (length (training n test) <= n)%nat).
  { unfold training. destruct test as [t|]; [|now rewrite seq_length]. rewrite <- (seq_length n 0) at 2.
    induction (seq 0 n) as [|a l IH]; [apply le_n|]. cbn [filter]. destruct (negb _); cbn [length]; lia. }
  assert (A : forall i, (i < n)%nat -> exists s, nicdm_radius vsum part (fill_diagonal D ninf) (training n test) (Z.of_nat k) i = Ok (vmean vsum s) /\
    k_smallest (others D (training n test) i) k s /\ (forall x, In x s -> nisfin x = true /\ within (-300) 300 x)).
  { intros i Hi. assert (Ho : forall x, In x (others D (training n test) i) -> nisfin x = true /\ within (-300) 300 x).
    { intros x Hx0. apply others_in in Hx0 as (j & Hj & Hne & ->). apply HD; auto. }
    destruct (nicdm_radius_spec f64_cmp part PO vsum D (training n test) k i) as (s & E & K & I).
    - apply P_LS2.training_NoDup.
    - intros x Hx0. now apply Ho.
    - apply others_len_lt. lia.
    - exists s. split; [exact E|]. split; [exact K|]. intros x Hx0. apply Ho, I, Hx0. }
  assert (Ch : exists near : nat -> list f64, forall i, (i < n)%nat -> nicdm_radius vsum part (fill_diagonal D ninf) (training n test) (Z.of_nat k) i = Ok (vmean vsum (near i)) /\
    k_smallest (others D (training n test) i) k (near i) /\ (forall x, In x (near i) -> nisfin x = true /\ within (-300) 300 x)).
  { exact (finite_choice n _ A). }
  destruct Ch as (near & Hnear). apply nicdm_outcome in H.
  destruct (nicdm_radii vsum part D (Z.of_nat k) "distance" test) as [rs|e] eqn:E.
  2:{ exfalso. unfold nicdm_radii in E. rewrite (proj2 (check_shape_ok D)) in E by congruence. cbn [bind] in E.
      change (check_valid_metric_parameter "distance") with (@Ok unit tt) in E. cbn [bind] in E.
      change (guard (is_sim "distance") NotImplementedError) with (@Ok unit tt) in E. cbn [bind] in E.
      apply mapM_raise in E as (i & Hi & E). rewrite Hr in *. apply in_seq in Hi. rewrite training_eq in E. destruct (Hnear i ltac:(lia)) as (E' & _). rewrite E' in E. discriminate. }
  apply nicdm_radii_inv in E as (_ & _ & Lr & Er). rewrite Hr in *.
  assert (Nr : forall i, (i < n)%nat -> nth i rs nnan = vmean vsum (near i)).
  { intros i Hi. specialize (Er i Hi). rewrite training_eq in Er. destruct (Hnear i Hi) as (E' & _). rewrite E' in Er. injection Er as Er. symmetry. exact Er. }
  destruct H as (L & -> & R1 & R2 & HL). exists L, near. split; [reflexivity|]. split; [exact R1|]. split; [exact R2|].
  split; [intros i Hi; now apply Hnear|].
  split. { intros i Hi. destruct (HL i i Hi Hi) as (Q & _). specialize (Q eq_refl). destruct Q as [-> |[-> | ->]]; reflexivity. }
  intros R g.
  assert (RR : forall i, (i < n)%nat -> nisfin (nth i rs nnan) = true /\ lclose (4 * eps) (B2R (nth i rs nnan)) (R i) /\
      bpow radix2 (-300) <= R i <= bpow radix2 300).
  { intros i Hi. destruct (Hnear i Hi) as (_ & (Lk & _) & Hb).
    destruct (mean64 eps n vsum He Hs Hn (near i)) as (B & F & C).
    - intros E0. rewrite E0 in Lk. cbn in Lk. lia.
    - rewrite Lk. lia.
    - exact Hb.
    - rewrite Nr by exact Hi. rewrite Lk in B, C. split; [exact F|]. split; [|exact B]. unfold vmean. rewrite Lk in *. exact C. }
  assert (Rn : rs <> []) by (intros ->; cbn in Lr; lia).
  destruct (geomean64 eps n vsum He Hs Hn vln vexp Hl Hx rs R Rn Lr RR) as (Bg & Fg & Cg). fold g in Bg, Cg.
  intros i j Hij Hj formula.
  destruct (RR i ltac:(lia)) as (Fi & Ci & Bi). destruct (RR j Hj) as (Fj & Cj & Bj). destruct (HD i j ltac:(lia) Hj ltac:(lia)) as (Fd & Wd).
  destruct (nicdm_val64 eps n He _ (at2 D i j) _ _ g (R i) (R j) Fg Fd Fi Fj Wd Cg Ci Cj Bg Bi Bj) as (Fv & Pf & Av). fold formula in Pf, Av.
  split; [exact Pf|].
  assert (G : forall w : f64, maybe0 (nicdm_cell (local_geomean vexp vln vsum rs) D (fun a => nth a rs nnan) i j) w -> nisfin w = true /\ Rabs (B2R w - formula) <= 750 * eps * formula).
  { intros w Hw. apply maybe0_same in Hw. destruct (same_B2R _ _ Hw Fv) as (Fw & Ew). split; [exact Fw|]. rewrite Ew. exact Av. }
  destruct (HL i j ltac:(lia) Hj) as (_ & M1). destruct (HL j i Hj ltac:(lia)) as (_ & M2).
  specialize (M1 ltac:(lia)). specialize (M2 ltac:(lia)). rewrite Nat.min_l, Nat.max_r in M1 by lia. rewrite Nat.min_r, Nat.max_l in M2 by lia.
  destruct (G _ M1). destruct (G _ M2). auto.
Qed.

(** ** The hypotheses can be met.  Adding from left to right has an error of at
    most n 2^-52 relative to the sum of the absolute values. *)
Definition left_to_right (l : list f64) : f64 := fold_left nadd l n0.

Lemma add64 (x y : f64) : is_finite x = true -> is_finite y = true -> Rabs (B2R x) <= bpow radix2 1000 -> Rabs (B2R y) <= bpow radix2 1000 ->
  is_finite (nadd x y) = true /\ exists e, Rabs e <= u53 /\ B2R (nadd x y) = (B2R x + B2R y) * (1 + e).
Proof.
  intros Fx Fy Bx By. change (nadd x y) with (Bplus mode_NE x y).
  pose proof (Bplus_correct 53 1024 prec53 emax1024 mode_NE x y Fx Fy) as B. fold (rnd (B2R x + B2R y)) in B.
  destruct (FLT_plus_error_N_ex radix2 (-1074) 53 (fun z => negb (Z.even z)) (B2R x) (B2R y)) as (e & He & Ee).
  - apply (generic_format_B2R 53 1024).
  - apply (generic_format_B2R 53 1024).
  - change (rnd (B2R x + B2R y) = (B2R x + B2R y) * (1 + e)) in Ee.
    assert (U : u_ro radix2 53 = u53).
    { unfold u_ro, u53. change (- (53) + 1)%Z with (-52)%Z. change (-53)%Z with (-1 + -52)%Z. rewrite bpow_plus. reflexivity. }
    rewrite U in He. pose proof u53_pos as Pu.
    assert (He' : Rabs e <= u53).
    { apply Rle_trans with (1 := He). apply Rmult_le_reg_r with (1 + u53); [lra|]. unfold Rdiv. rewrite Rmult_assoc, Rinv_l by lra. nra. }
    assert (S : Rabs (rnd (B2R x + B2R y)) < bpow radix2 1024).
    { rewrite Ee, Rabs_mult.
      assert (A1 : Rabs (B2R x + B2R y) <= 2 * bpow radix2 1000) by (eapply Rle_trans; [apply Rabs_triang|lra]).
      assert (A2 : Rabs (1 + e) <= 2) by (apply Rabs_le_inv in He'; apply Rabs_le; lra).
      pose proof (Rabs_pos (B2R x + B2R y)). pose proof (Rabs_pos (1 + e)). pose proof (bpow_gt_0 radix2 1000).
      apply Rle_lt_trans with (bpow radix2 2 * bpow radix2 1000); [change (bpow radix2 2) with 4; nra|]. rewrite <- bpow_plus. apply bpow_lt. lia. }
    rewrite (Rlt_bool_true _ _ S) in B. destruct B as (V & F & _). split; [exact F|]. exists e. split; [exact He'|]. rewrite V. exact Ee.
Qed.

Lemma pow_1u m : (1 + u53) ^ m <= exp (INR m * u53).
Proof.
  pose proof u53_pos as P. induction m as [|m IH]; [cbn; rewrite Rmult_0_l, exp_0; lra|]. rewrite S_INR. cbn [pow].
  replace ((INR m + 1) * u53) with (u53 + INR m * u53) by ring. rewrite exp_plus. pose proof (exp_ineq1_le u53).
  apply Rmult_le_compat; try lra. apply pow_le. lra.
Qed.

Lemma total_app l x : total (l ++ [x]) = total l + x.
Proof. induction l as [|a l IH]; cbn; [ring|]. fold (total (l ++ [x])) (total l). rewrite IH. ring. Qed.

Theorem C158_left_to_right : forall n, (0 < Z.of_nat n <= 2 ^ 30)%Z -> sum_close (INR n * bpow radix2 (-52)) n left_to_right.
Proof.
  intros n Hn l Hl Hb. pose proof u53_pos as Pu.
  assert (Nn : INR n <= bpow radix2 30).
  { rewrite INR_IZR_INZ. change (bpow radix2 30) with (IZR (2 ^ 30)). apply IZR_le. lia. }
  assert (Ex : forall m, (m <= n)%nat -> (1 + u53) ^ m <= 1 + INR n * (2 * u53) /\ 1 + INR n * (2 * u53) <= 2).
  { intros m Hm. apply le_INR in Hm. assert (T : 0 <= INR n * u53 <= / 4).
    { split; [apply Rmult_le_pos; [apply pos_INR|lra]|].
      apply Rle_trans with (bpow radix2 30 * u53); [apply Rmult_le_compat_r; lra|]. unfold u53. rewrite <- bpow_plus. change (/ 4) with (bpow radix2 (-2)). apply bpow_le. lia. }
    assert (M : INR m * u53 <= INR n * u53) by (apply Rmult_le_compat_r; lra).
    split; [|lra]. apply Rle_trans with (1 := pow_1u m). apply Rle_trans with (exp (INR n * u53)); [now apply exp_le|].
    set (t := INR n * u53) in *. replace (INR n * (2 * u53)) with (2 * t) by (unfold t; ring).
    pose proof (exp_ineq1_le (- t)) as I. rewrite exp_Ropp in I. pose proof (exp_pos t) as P.
    apply Rmult_le_compat_r with (r := exp t) in I; [|lra]. rewrite Rinv_l in I by lra. nra. }
  assert (G : forall l', (length l' <= n)%nat -> (forall x, In x l' -> nisfin x = true /\ Rabs (B2R x) <= bpow radix2 300) ->
    let A := total (map (fun x => Rabs (B2R x)) l') in
    is_finite (left_to_right l') = true /\ 0 <= A <= INR n * bpow radix2 300 /\
    Rabs (B2R (left_to_right l')) <= 2 * A /\
    Rabs (B2R (left_to_right l') - total (map B2R l')) <= ((1 + u53) ^ length l' - 1) * A).
  { intros l'. induction l' as [|x l' IH] using rev_ind; intros Hl' Hb' A.
    - change (left_to_right []) with (n0 (V:=f64)). unfold A. cbn [map total fold_right length pow]. destruct n0_f64 as (E & F). rewrite E. rewrite Rabs_R0, Rminus_0_r, Rabs_R0.
      pose proof (pos_INR n). pose proof (bpow_gt_0 radix2 300). split; [exact F|]. repeat split; try nra.
    - rewrite app_length in Hl'. cbn [length] in Hl'.
      destruct IH as (F & BA & BS & BE); [lia|intros; apply Hb'; apply in_or_app; now left|].
      destruct (Hb' x) as (Fx & Bx); [apply in_or_app; right; now left|].
      set (A' := total (map (fun x => Rabs (B2R x)) l')) in *.
      assert (EA : A = A' + Rabs (B2R x)) by (unfold A, A'; rewrite map_app; cbn [map]; apply total_app).
      assert (BT : 0 <= A <= INR n * bpow radix2 300).
      { unfold A. split.
        - rewrite <- (Rmult_0_r (INR (length (l' ++ [x])))). apply (total_bounds _ 0 (bpow radix2 300)). intros y Hy. split; [apply Rabs_pos|now apply Hb'].
        - apply Rle_trans with (INR (length (l' ++ [x])) * bpow radix2 300).
          + apply (total_bounds _ 0 (bpow radix2 300)). intros y Hy. split; [apply Rabs_pos|now apply Hb'].
          + apply Rmult_le_compat_r; [apply bpow_ge_0|]. apply le_INR. rewrite app_length. cbn. lia. }
      assert (BB : 2 * (INR n * bpow radix2 300) <= bpow radix2 1000).
      { apply Rle_trans with (bpow radix2 1 * (bpow radix2 30 * bpow radix2 300)).
        - change (bpow radix2 1) with 2. apply Rmult_le_compat_l; [lra|]. apply Rmult_le_compat_r; [apply bpow_ge_0|exact Nn].
        - rewrite <- !bpow_plus. apply bpow_le. lia. }
      assert (B3 : bpow radix2 300 <= bpow radix2 1000) by (apply bpow_le; lia).
      assert (EL : left_to_right (l' ++ [x]) = nadd (left_to_right l') x) by (unfold left_to_right; rewrite fold_left_app; reflexivity).
      destruct (add64 (left_to_right l') x F Fx) as (F' & e & He & E'); [lra|lra|].
      rewrite EL, E'. split; [exact F'|]. split; [exact BT|].
      set (s := B2R (left_to_right l')) in *. set (T := total (map B2R l')) in *. set (v := B2R x) in *.
      assert (ET : total (map B2R (l' ++ [x])) = T + v) by (rewrite map_app; cbn [map]; apply total_app). rewrite ET.
      pose proof (Rabs_pos v) as Pv. pose proof (Rabs_pos e) as Pe. destruct (Ex (length l') ltac:(lia)) as (X1 & X2).
      assert (Pw : 1 <= (1 + u53) ^ length l') by (apply pow_R1_Rle; lra). set (w := (1 + u53) ^ length l') in *.
      assert (AT : Rabs T <= A').
      { unfold T, A'. clear. induction l' as [|a l IH]; cbn; [rewrite Rabs_R0; lra|]. eapply Rle_trans; [apply Rabs_triang|].
        fold (total (map B2R l)) (total (map (fun x : f64 => Rabs (B2R x)) l)). apply Rplus_le_compat_l. exact IH. }
      assert (S1 : Rabs s <= w * A').
      { replace s with ((s - T) + T) by ring. eapply Rle_trans; [apply Rabs_triang|]. nra. }
      assert (S2 : Rabs (s + v) <= w * A' + Rabs v) by (eapply Rle_trans; [apply Rabs_triang|lra]).
      assert (S3 : Rabs ((s + v) * (1 + e) - (T + v)) <= (w * (1 + u53) - 1) * (A' + Rabs v)).
      { replace ((s + v) * (1 + e) - (T + v)) with ((s - T) + e * (s + v)) by ring. eapply Rle_trans; [apply Rabs_triang|].
        rewrite (Rabs_mult e). assert (Rabs e * Rabs (s + v) <= u53 * (w * A' + Rabs v)) by (apply Rmult_le_compat; try apply Rabs_pos; assumption).
        assert (0 <= (w - 1) * (1 + u53) * Rabs v) by (apply Rmult_le_pos; [apply Rmult_le_pos; lra|lra]).
        assert (BE' : Rabs (s - T) <= (w - 1) * A') by exact BE. nra. }
      assert (Ew : (1 + u53) ^ length (l' ++ [x]) = w * (1 + u53)).
      { rewrite app_length. cbn [length]. rewrite Nat.add_1_r. unfold w. cbn [pow]. ring. }
      rewrite Ew, EA. split; [|exact S3].
      destruct (Ex (length (l' ++ [x]))) as (Y1 & Y2); [rewrite app_length; cbn; lia|]. rewrite Ew in Y1.
      replace ((s + v) * (1 + e)) with (((s + v) * (1 + e) - (T + v)) + (T + v)) by ring. eapply Rle_trans; [apply Rabs_triang|].
      assert (Rabs (T + v) <= A' + Rabs v) by (eapply Rle_trans; [apply Rabs_triang|lra]). nra. }
  destruct (G l Hl Hb) as (F & BA & _ & BE). split; [exact F|]. apply Rle_trans with (1 := BE).
  apply Rmult_le_compat_r; [apply BA|]. destruct (Ex (length l) Hl) as (X & _).
  assert (E52 : bpow radix2 (-52) = 2 * u53) by (unfold u53; change (-52)%Z with (1 + -53)%Z; rewrite bpow_plus; reflexivity).
  rewrite E52. lra.
Qed.

(** the correctly rounded result of a real function *)
Definition of_real (r : R) : f64 :=
  binary_normalize 53 1024 prec53 emax1024 mode_NE
    (Ztrunc (scaled_mantissa radix2 (SpecFloat.fexp 53 1024) (rnd r))) (cexp radix2 (SpecFloat.fexp 53 1024) (rnd r)) false.

Lemma of_real_ok r : Rabs (rnd r) < bpow radix2 1024 -> is_finite (of_real r) = true /\ B2R (of_real r) = rnd r.
Proof.
  intros H. unfold of_real. pose proof (binary_normalize_correct 53 1024 prec53 emax1024 mode_NE
    (Ztrunc (scaled_mantissa radix2 (SpecFloat.fexp 53 1024) (rnd r))) (cexp radix2 (SpecFloat.fexp 53 1024) (rnd r)) false) as B. cbv zeta in B.
  assert (Gf : generic_format radix2 (SpecFloat.fexp 53 1024) (rnd r)).
  { apply generic_format_round; [apply (fexp_correct 53 1024 prec53)|apply (valid_rnd_round_mode mode_NE)]. }
  change (F2R (Float radix2 (Ztrunc (scaled_mantissa radix2 (SpecFloat.fexp 53 1024) (rnd r))) (cexp radix2 (SpecFloat.fexp 53 1024) (rnd r)))) with
    (F2R (Float radix2 (Ztrunc (scaled_mantissa radix2 (SpecFloat.fexp 53 1024) (rnd r))) (cexp radix2 (SpecFloat.fexp 53 1024) (rnd r)))) in B.
  unfold generic_format in Gf. rewrite <- Gf in B. fold (rnd (rnd r)) in B.
  assert (RR : rnd (rnd r) = rnd r) by (apply rnd_gen; exact Gf). rewrite RR in B. rewrite (Rlt_bool_true _ _ H) in B.
  destruct B as (V & F & _). split; assumption.
Qed.

(** correctly rounded logarithm and exponential function *)
Definition ln_rounded (x : f64) : f64 := of_real (ln (B2R x)).
Definition exp_rounded (x : f64) : f64 := of_real (exp (B2R x)).

Lemma finite_below (x : f64) : 0 < B2R x -> bpow radix2 (-1074) <= B2R x < bpow radix2 1024.
Proof.
  intros P. split; [|apply Rle_lt_trans with (1 := Rle_abs _); apply abs_B2R_lt_emax].
  rewrite <- (Rabs_pos_eq (B2R x)) by lra. apply (abs_B2R_ge_emin 53 1024).
  destruct x as [s|s| |s m e Hb]; cbn in P; try lra; reflexivity.
Qed.

Theorem C158_ln_rounded : ln_close (bpow radix2 (-53)) ln_rounded.
Proof.
  intros x Fx Px. fold u53. set (y := ln (B2R x)).
  assert (By : Rabs y <= 1074).
  { destruct (finite_below x Px) as (Lo & Hi). pose proof ln2_le as L2. assert (0 < ln 2) by (rewrite <- ln_1; apply ln_increasing; lra).
    assert (A : forall a b, 0 < a -> a <= b -> ln a <= ln b).
    { intros a b Pa [H0| ->]; [left; now apply ln_increasing|lra]. }
    pose proof (A _ _ (bpow_gt_0 radix2 _) Lo) as A1. pose proof (A _ _ Px (Rlt_le _ _ Hi)) as A2. rewrite ln_bpow in A1, A2.
    fold y in A1, A2. apply Rabs_le. lra. }
  destruct (rnd_any y) as (e & t & He & Ht & E). pose proof u53_pos as Pu. pose proof (Rabs_pos y) as Py.
  assert (Er : Rabs (rnd y - y) <= u53 * (1 + Rabs y)).
  { rewrite E. replace (y * (1 + e) + t - y) with (e * y + t) by ring. eapply Rle_trans; [apply Rabs_triang|]. rewrite Rabs_mult.
    assert (Rabs e * Rabs y <= u53 * Rabs y) by (apply Rmult_le_compat_r; assumption). lra. }
  destruct (of_real_ok y) as (F & V).
  - assert (u53 <= 1) by (unfold u53; change 1 with (bpow radix2 0); apply bpow_le; lia).
    replace (rnd y) with ((rnd y - y) + y) by ring. eapply Rle_lt_trans; [apply Rabs_triang|].
    apply Rle_lt_trans with (bpow radix2 12); [change (bpow radix2 12) with 4096; nra|apply bpow_lt; lia].
  - split; [exact F|]. unfold ln_rounded. fold y. rewrite V. exact Er.
Qed.

Lemma exp_600 : exp 300 <= bpow radix2 600.
Proof.
  assert (G : forall m, exp (INR m * 1) <= bpow radix2 (2 * Z.of_nat m)).
  { induction m as [|m IH]; [cbn; rewrite Rmult_0_l, exp_0; lra|]. rewrite S_INR, Rmult_plus_distr_r, exp_plus, Rmult_1_l.
    replace (2 * Z.of_nat (S m))%Z with (2 * Z.of_nat m + 2)%Z by lia. rewrite bpow_plus. pose proof exp_le_3. pose proof (exp_pos (INR m * 1)).
    pose proof (exp_pos 1). change (bpow radix2 2) with 4. apply Rmult_le_compat; try lra. }
  specialize (G 300%nat). rewrite INR_IZR_INZ, Rmult_1_r in G. exact G.
Qed.

Theorem C158_exp_rounded : exp_accurate (bpow radix2 (-53)) exp_rounded.
Proof.
  intros x Fx Hx. fold u53. set (y := exp (B2R x)). apply Rabs_le_inv in Hx.
  assert (By : bpow radix2 (-600) <= y <= bpow radix2 600).
  { split.
    - apply Rle_trans with (exp (-300)); [|apply exp_le; lra].
      replace (-300) with (- (300)) by lra. rewrite exp_Ropp. change (-600)%Z with (- (600))%Z. rewrite bpow_opp. apply Rinv_le; [apply exp_pos|apply exp_600].
    - apply Rle_trans with (exp 300); [apply exp_le; lra|apply exp_600]. }
  pose proof (exp_pos (B2R x)) as Py. fold y in Py.
  destruct (rnd_norm y) as (e & He & E).
  { rewrite Rabs_pos_eq by lra. apply Rle_trans with (2 := proj1 By). apply bpow_le. lia. }
  destruct (of_real_ok y) as (F & V).
  - apply under_max; [lra|]. apply Rle_trans with (1 := proj2 By). apply bpow_le. lia.
  - split; [exact F|]. unfold exp_rounded. fold y. rewrite V, E. replace (y * (1 + e) - y) with (e * y) by ring.
    rewrite Rabs_mult, (Rabs_pos_eq y) by lra. apply Rmult_le_compat_r; lra.
Qed.

(** with these three functions the relative error is at most 750 n 2^-52 *)
Theorem C158_error_in_n :
  forall part (D : arr2 f64) n k test cpu n_jobs res,
    part_ok part -> nrow D = n -> ncol D = n -> (Z.of_nat n <= 2 ^ 30)%Z ->
    (forall i j, (i < n)%nat -> (j < n)%nat -> i <> j -> nisfin (at2 D i j) = true /\ within (-300) 300 (at2 D i j)) ->
    (0 < k < length (training n test))%nat ->
    nicdm exp_rounded ln_rounded left_to_right part D (Z.of_nat k) "distance" test cpu n_jobs res ->
    exists L (near : nat -> list f64), res = Ok L /\
      (forall i, (i < n)%nat -> k_smallest (others D (training n test) i) k (near i)) /\
      let R i := total (map B2R (near i)) / INR k in
      let g := exp (total (map (fun i => ln (R i)) (seq 0 n)) / INR n) in
      forall i j, (i < j)%nat -> (j < n)%nat ->
        let formula := g * B2R (at2 D i j) / sqrt (R i * R j) in
        0 < formula /\
        Rabs (B2R (at2 L i j) - formula) <= 750 * (INR n * bpow radix2 (-52)) * formula /\
        Rabs (B2R (at2 L j i) - formula) <= 750 * (INR n * bpow radix2 (-52)) * formula.
Proof.
  intros part D n k test cpu nj res PO Hr Hc Hn HD Hk H.
  assert (Pn : (0 < n)%nat).
  { destruct n as [|n]; [|lia]. unfold training in Hk. destruct test; cbn in Hk; lia. }
  assert (E52 : bpow radix2 (-52) = 2 * bpow radix2 (-53)) by (change (-52)%Z with (1 + -53)%Z; rewrite bpow_plus; reflexivity).
  pose proof (bpow_gt_0 radix2 (-53)) as P53. assert (N1 : 1 <= INR n) by (apply (le_INR 1); lia).
  set (eps := INR n * bpow radix2 (-52)).
  assert (He : bpow radix2 (-53) <= eps <= bpow radix2 (-20)).
  { unfold eps. split; [rewrite E52; nra|]. apply Rle_trans with (bpow radix2 30 * bpow radix2 (-52)).
    - apply Rmult_le_compat_r; [apply bpow_ge_0|]. rewrite INR_IZR_INZ. change (bpow radix2 30) with (IZR (2 ^ 30)). apply IZR_le. lia.
    - rewrite <- bpow_plus. apply bpow_le. lia. }
  assert (Hs : sum_close eps n left_to_right) by (apply C158_left_to_right; lia).
  assert (Hl : ln_close eps ln_rounded).
  { intros x Fx Px. destruct (C158_ln_rounded x Fx Px) as (F & B). split; [exact F|]. apply Rle_trans with (1 := B).
    apply Rmult_le_compat_r; [|apply He]. pose proof (Rabs_pos (ln (B2R x))). lra. }
  assert (Hx : exp_accurate eps exp_rounded).
  { intros x Fx Px. destruct (C158_exp_rounded x Fx Px) as (F & B). split; [exact F|]. apply Rle_trans with (1 := B).
    apply Rmult_le_compat_r; [|apply He]. pose proof (exp_pos (B2R x)). lra. }
  destruct (C158_nicdm_accuracy _ _ _ eps part D n k test cpu nj res He Hs Hl Hx PO Hr Hc ltac:(lia) HD Hk H)
    as (L & near & E & _ & _ & K & _ & A). exists L, near. split; [exact E|]. split; [exact K|]. intros R g i j Hij Hj.
  destruct (A i j Hij Hj) as (P & _ & A1 & _ & A2). auto.
Qed.

(** three points on a line meet the hypotheses *)
Example C158_case : exists res,
  nicdm exp_rounded ln_rounded left_to_right ref_part (line3 0) (Z.of_nat 1) "distance" None 4 1 res /\
  nrow (line3 0) = 3%nat /\ ncol (line3 0) = 3%nat /\ part_ok (ref_part (V:=f64)) /\ (0 < 1 < length (training 3 None))%nat /\
  forall i j, (i < 3)%nat -> (j < 3)%nat -> i <> j -> nisfin (at2 (line3 0) i j) = true /\ within (-300) 300 (at2 (line3 0) i j).
Proof.
  eexists. split; [apply ni_one; cbn; lia|]. split; [reflexivity|]. split; [reflexivity|]. split; [exact (ref_part_ok f64_cmp)|].
  split; [cbn; lia|]. intros i j Hi Hj Hne. destruct (line3_at 0 i j ltac:(lia) Hi Hj Hne) as ((F & _) & (B & C) & _). split; [exact F|]. split.
  - apply Rle_trans with (2 := B). apply bpow_le. lia.
  - apply Rle_trans with (1 := C). apply bpow_le. lia.
Qed.

Print Assumptions C158_nicdm_accuracy.
Print Assumptions C158_left_to_right.
Print Assumptions C158_ln_rounded.
Print Assumptions C158_exp_rounded.
Print Assumptions C158_error_in_n.
