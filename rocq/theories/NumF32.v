(** binary32 (numpy's float32), the type approximate.py converts all data to. *)
From Coq Require Import ZArith Reals Lra Lia Bool.
From Flocq Require Import Core BinarySingleNaN.
From Verif Require Import Num.

Definition f32 : Type := binary_float 24 128.

#[global] Instance prec24 : Prec_gt_0 24. Proof. reflexivity. Qed.
#[global] Instance emax128 : Prec_lt_emax 24 128. Proof. reflexivity. Qed.

Definition f32_ofZ (z : Z) : f32 :=
  binary_normalize 24 128 prec24 emax128 mode_NE z 0 false.

#[global] Instance Num_f32 : Num f32 := {
  nofZ := f32_ofZ;
  nadd := Bplus mode_NE;
  nsub := Bminus mode_NE;
  nmul := Bmult mode_NE;
  ndiv := Bdiv mode_NE;
  nopp := Bopp;
  nsqrt := Bsqrt mode_NE;
  ninf := B754_infinity false;
  nnan := B754_nan;
  nlt := Bltb;
  nle := Bleb;
  neq := Beqb;
  nisnan := is_nan;
  nisfin := is_finite
}.

Definition f32x (x : f32) : xr :=
  match x with
  | B754_nan => XNaN
  | B754_infinity false => XPInf
  | B754_infinity true => XNInf
  | _ => XFin (B2R x)
  end.
Lemma f32x_fin x : is_finite x = true -> f32x x = XFin (B2R x).
Proof. destruct x; try reflexivity; discriminate. Qed.

Lemma f32_ofZ_exact z : (Z.abs z <= 2 ^ 24)%Z ->
  B2R (f32_ofZ z) = IZR z /\ is_finite (f32_ofZ z) = true.
Proof.
  intros Hz. unfold f32_ofZ.
  pose proof (binary_normalize_correct 24 128 prec24 emax128 mode_NE z 0 false) as H.
  cbv zeta in H.
  replace (F2R {| Fnum := z; Fexp := 0 |}) with (IZR z) in H
    by (unfold F2R; simpl; ring).
  assert (G : generic_format radix2 (SpecFloat.fexp 24 128) (IZR z)).
  { destruct (Z.eq_dec (Z.abs z) (2 ^ 24)) as [E|E].
    - assert (E' : (z = 2^24 \/ z = -2^24)%Z) by lia.
      assert (P : generic_format radix2 (SpecFloat.fexp 24 128) (bpow radix2 24)).
      { apply (generic_format_bpow radix2 (SpecFloat.fexp 24 128)).
        vm_compute. discriminate. }
      destruct E' as [E'|E']; rewrite E'.
      + exact P.
      + replace (IZR (- 2 ^ 24)) with (- bpow radix2 24)%R.
        * now apply generic_format_opp.
        * rewrite opp_IZR. reflexivity.
    - apply (generic_format_FLT radix2 (SpecFloat.emin 24 128) 24).
      exists (Float radix2 z 0).
      + unfold F2R; simpl; ring.
      + simpl. lia.
      + simpl. vm_compute. discriminate. }
  rewrite (round_generic radix2 _ _ _ G) in H.
  rewrite Rlt_bool_true in H.
  - destruct H as (H1 & H2 & _). split; assumption.
  - rewrite <- abs_IZR.
    apply Rle_lt_trans with (IZR (2 ^ 24)).
    + apply IZR_le; lia.
    + change (IZR (2^24)) with (bpow radix2 24). apply bpow_lt. lia.
Qed.

Lemma f32x_ofZ z : (Z.abs z <= 2 ^ 24)%Z -> f32x (f32_ofZ z) = XFin (IZR z).
Proof.
  intros Hz. destruct (f32_ofZ_exact z Hz) as (H1 & H2).
  rewrite f32x_fin by assumption. now rewrite H1.
Qed.

Lemma f32_cmp : CmpLaws f32 Num_f32 f32x.
Proof.
  constructor; simpl.
  - intros x y.
    destruct (is_finite x) eqn:Fx; destruct (is_finite y) eqn:Fy.
    + rewrite Bltb_correct, (f32x_fin x), (f32x_fin y) by assumption; simpl.
      destruct (Rlt_dec (B2R x) (B2R y)) as [L|L].
      * now apply Rlt_bool_true.
      * apply Rlt_bool_false. lra.
    + destruct x as [ s1 | [|] | | s1 m1 e1 H1 ], y as [ s2 | [|] | | s2 m2 e2 H2 ]; try discriminate; try reflexivity;
      try destruct s1; try destruct s2; reflexivity.
    + destruct x as [ s1 | [|] | | s1 m1 e1 H1 ], y as [ s2 | [|] | | s2 m2 e2 H2 ]; try discriminate; try reflexivity;
      try destruct s1; try destruct s2; reflexivity.
    + destruct x as [ s1 | [|] | | s1 m1 e1 H1 ], y as [ s2 | [|] | | s2 m2 e2 H2 ]; try discriminate; reflexivity.
  - intros x y.
    destruct (is_finite x) eqn:Fx; destruct (is_finite y) eqn:Fy.
    + rewrite Bleb_correct, (f32x_fin x), (f32x_fin y) by assumption; simpl.
      destruct (Rle_dec (B2R x) (B2R y)) as [L|L].
      * now apply Rle_bool_true.
      * apply Rle_bool_false. lra.
    + destruct x as [ s1 | [|] | | s1 m1 e1 H1 ], y as [ s2 | [|] | | s2 m2 e2 H2 ]; try discriminate; try reflexivity;
      try destruct s1; try destruct s2; reflexivity.
    + destruct x as [ s1 | [|] | | s1 m1 e1 H1 ], y as [ s2 | [|] | | s2 m2 e2 H2 ]; try discriminate; try reflexivity;
      try destruct s1; try destruct s2; reflexivity.
    + destruct x as [ s1 | [|] | | s1 m1 e1 H1 ], y as [ s2 | [|] | | s2 m2 e2 H2 ]; try discriminate; reflexivity.
  - intros x y.
    destruct (is_finite x) eqn:Fx; destruct (is_finite y) eqn:Fy.
    + rewrite Beqb_correct, (f32x_fin x), (f32x_fin y) by assumption; simpl.
      destruct (Req_EM_T (B2R x) (B2R y)) as [L|L].
      * now apply Req_bool_true.
      * now apply Req_bool_false.
    + destruct x as [ s1 | [|] | | s1 m1 e1 H1 ], y as [ s2 | [|] | | s2 m2 e2 H2 ]; try discriminate; try reflexivity;
      try destruct s1; try destruct s2; reflexivity.
    + destruct x as [ s1 | [|] | | s1 m1 e1 H1 ], y as [ s2 | [|] | | s2 m2 e2 H2 ]; try discriminate; try reflexivity;
      try destruct s1; try destruct s2; reflexivity.
    + destruct x as [ s1 | [|] | | s1 m1 e1 H1 ], y as [ s2 | [|] | | s2 m2 e2 H2 ]; try discriminate; reflexivity.
  - intros [s|[|]| |s m e H]; reflexivity.
  - intros [s|[|]| |s m e H]; reflexivity.
  - reflexivity.
  - reflexivity.
  - apply (f32x_ofZ 0). vm_compute. discriminate.
  - apply (f32x_ofZ 1). vm_compute. discriminate.
Qed.

(** storing a float64 in a float32 array: round to nearest even *)
Definition f32_of (x : f64) : f32 :=
  match x with
  | B754_nan => B754_nan
  | B754_infinity s => B754_infinity s
  | B754_zero s => B754_zero s
  | B754_finite s m e _ => binary_normalize 24 128 prec24 emax128 mode_NE (cond_Zopp s (Zpos m)) e s
  end.
