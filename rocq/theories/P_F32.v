(** Rounding facts about storing float64 values as float32. *)
From Coq Require Import ZArith Reals Lra Lia Bool.
From Flocq Require Import Core BinarySingleNaN.
From Verif Require Import Num NumF32 P_F64.
Local Open Scope R_scope.

Definition rnd32 (x : R) : R := round radix2 (SpecFloat.fexp 24 128) (round_mode mode_NE) x.
#[local] Instance vexp24 : Valid_exp (SpecFloat.fexp 24 128) := fexp_correct 24 128 prec24.
#[local] Instance vrnd24 : Valid_rnd (round_mode mode_NE) := valid_rnd_round_mode mode_NE.

Lemma rnd32_le x y : x <= y -> rnd32 x <= rnd32 y.
Proof. intros H. unfold rnd32. now apply round_le; try exact vexp24; try exact vrnd24. Qed.
Lemma rnd32_bpow e : (-149 <= e < 128)%Z -> rnd32 (bpow radix2 e) = bpow radix2 e.
Proof.
  intros He. unfold rnd32. apply round_generic; try exact vrnd24.
  apply (generic_format_FLT radix2 (SpecFloat.emin 24 128) 24). exists (Float radix2 1 e).
  - unfold F2R; simpl; ring.
  - simpl. lia.
  - simpl. unfold SpecFloat.emin. lia.
Qed.
Lemma rnd32_0 : rnd32 0 = 0.
Proof. unfold rnd32. apply round_0. exact vrnd24. Qed.

Lemma f32_of_correct (x : f64) : is_finite x = true -> Rabs (B2R x) <= 1 ->
  B2R (f32_of x) = rnd32 (B2R x) /\ is_finite (f32_of x) = true.
Proof.
  intros Hf Hx. destruct x as [s|s| |s m e H]; try discriminate.
  - cbn. rewrite rnd32_0. auto.
  - pose proof (binary_normalize_correct 24 128 prec24 emax128 mode_NE (cond_Zopp s (Zpos m)) e s) as K. cbv zeta in K.
    change (F2R {| Fnum := cond_Zopp s (Z.pos m); Fexp := e |}) with (B2R (B754_finite s m e H)) in K.
    fold (rnd32 (B2R (B754_finite s m e H))) in K.
    rewrite Rlt_bool_true in K; [destruct K as (K1 & K2 & _); split; assumption|].
    assert (B : bpow radix2 0 < bpow radix2 128) by (apply bpow_lt; reflexivity).
    assert (R1 : rnd32 1 = 1) by (apply (rnd32_bpow 0); lia).
    assert (R2 : rnd32 (-1) = -1) by (change (-1) with (Ropp 1); unfold rnd32 in *; cbn [round_mode] in *; rewrite round_NE_opp; now rewrite R1).
    apply Rabs_le_inv in Hx. destruct Hx as (Ha & Hb). apply rnd32_le in Ha. apply rnd32_le in Hb.
    replace (Ropp 1) with (-1)%R in Ha by reflexivity. rewrite R1 in Hb. apply Rle_lt_trans with 1; [|exact B]. apply Rabs_le. split; [|assumption].
    apply Rle_trans with (2 := Ha). apply Req_le. symmetry. exact R2.
Qed.

(** values in (0, 1] that are not tiny stay in (0, 1] *)
Lemma f32_of_unit (x : f64) : nisfin x = true -> bpow radix2 (-53) <= B2R x <= 1 ->
  nlt n0 (f32_of x) = true /\ nle (f32_of x) n1 = true.
Proof.
  intros Hf (Ha & Hb). assert (P := bpow_gt_0 radix2 (-53)).
  destruct (f32_of_correct x Hf) as (E & F); [rewrite Rabs_pos_eq; lra|].
  apply rnd32_le in Ha. apply rnd32_le in Hb. rewrite (rnd32_bpow (-53)) in Ha by lia.
  change 1 with (bpow radix2 0) in Hb. rewrite (rnd32_bpow 0) in Hb by lia. change (bpow radix2 0) with 1 in Hb.
  rewrite (cl_lt _ _ _ f32_cmp), (cl_le _ _ _ f32_cmp), (cl_0 _ _ _ f32_cmp), (cl_1 _ _ _ f32_cmp).
  rewrite (f32x_fin _ F), E. cbn. split.
  - destruct (Rlt_dec 0 (rnd32 (B2R x))); [reflexivity|lra].
  - destruct (Rle_dec (rnd32 (B2R x)) 1); [reflexivity|lra].
Qed.

Lemma f32_of_compl_frac c n : (c < n)%nat -> (Z.of_nat n <= 2 ^ 53)%Z ->
  nlt n0 (f32_of (nsub n1 (ndiv (nofnat c) (nofnat n)))) = true /\ nle (f32_of (nsub n1 (ndiv (nofnat c) (nofnat n)))) n1 = true.
Proof.
  intros Hc Hb. pose proof (frac_lt1 c n Hc Hb).
  destruct (compl_correct (ndiv (V:=f64) (nofnat c) (nofnat n))) as ((F & _ & U) & E); [apply frac_unit; lia|].
  apply f32_of_unit; [exact F|]. split; [rewrite E; apply rnd_gt0; lra|apply U].
Qed.
Lemma f32_of_compl_0 n : (0 < n)%nat -> (Z.of_nat n <= 2 ^ 53)%Z ->
  neq (f32_of (nsub n1 (ndiv (nofnat 0) (nofnat n)))) n1 = true.
Proof.
  intros Hn Hb. destruct (frac_correct 0 n) as (U & E); [lia|exact Hn|exact Hb|].
  replace (INR 0 / INR n) with 0 in E by (cbn; unfold Rdiv; ring). rewrite rnd_0 in E.
  destruct (compl_correct _ U) as ((F & _ & _) & E'). rewrite E, Rminus_0_r, rnd_1 in E'.
  destruct (f32_of_correct _ F) as (G & G'); [rewrite E', Rabs_pos_eq; lra|]. rewrite E' in G.
  change 1 with (bpow radix2 0) in G. rewrite rnd32_bpow in G by lia. change (bpow radix2 0) with 1 in G.
  rewrite (cl_eq _ _ _ f32_cmp), (cl_1 _ _ _ f32_cmp), (f32x_fin _ G'), G. cbn. destruct (Req_EM_T 1 1); [reflexivity|contradiction].
Qed.
