(** Numbers.

    [Num] collects the operations of a numpy float array element that the code
    uses.  It contains operations only, no laws.  Two instances:

    - [f64]: IEEE-754 binary64 with round-to-nearest-even, from Flocq.  This is
      numpy's float64 for [+ - * / sqrt] and comparisons (NaN payloads are not
      distinguished).
    - [xr]: real numbers with +inf, -inf and NaN.  Exact arithmetic, one zero.
*)
From Coq Require Import ZArith Reals Lra Lia Bool.
From Flocq Require Import Core BinarySingleNaN.

Class Num (V : Type) := {
  nofZ : Z -> V;
  nadd : V -> V -> V;
  nsub : V -> V -> V;
  nmul : V -> V -> V;
  ndiv : V -> V -> V;
  nopp : V -> V;
  nsqrt : V -> V;
  ninf : V;
  nnan : V;
  nlt : V -> V -> bool;
  nle : V -> V -> bool;
  neq : V -> V -> bool;
  nisnan : V -> bool;
  nisfin : V -> bool
}.

Definition n0 {V} {N : Num V} : V := nofZ 0.
Definition n1 {V} {N : Num V} : V := nofZ 1.
Definition nninf {V} {N : Num V} : V := nopp ninf.
Definition nofnat {V} {N : Num V} (n : nat) : V := nofZ (Z.of_nat n).

(** numpy sort order: NaN is last *)
Definition sle {V} {N : Num V} (x y : V) : bool :=
  nisnan y || (negb (nisnan x) && nle x y).

(* ------------------------------------------------------------------ *)
(** ** binary64 *)

Definition f64 : Type := binary_float 53 1024.

#[global] Instance prec53 : Prec_gt_0 53. Proof. reflexivity. Qed.
#[global] Instance emax1024 : Prec_lt_emax 53 1024. Proof. reflexivity. Qed.

Definition f64_ofZ (z : Z) : f64 :=
  binary_normalize 53 1024 prec53 emax1024 mode_NE z 0 false.

#[global] Instance Num_f64 : Num f64 := {
  nofZ := f64_ofZ;
  nadd := Bplus mode_NE;
  nsub := Bminus mode_NE;
  nmul := Bmult mode_NE;
  ndiv := Bdiv mode_NE;
  nopp := Bopp;
  nsqrt := Bsqrt mode_NE;
  ninf := B754_infinity false;
  nnan := B754_nan;
  nlt := Bltb;
  nle := Bleb;
  neq := Beqb;
  nisnan := is_nan;
  nisfin := is_finite
}.

(* ------------------------------------------------------------------ *)
(** ** extended reals with NaN *)

Inductive xr : Type := XNaN | XNInf | XFin (r : R) | XPInf.

Definition xopp (x : xr) : xr :=
  match x with
  | XNaN => XNaN | XNInf => XPInf | XPInf => XNInf | XFin r => XFin (- r)
  end.

Definition xadd (x y : xr) : xr :=
  match x, y with
  | XNaN, _ | _, XNaN => XNaN
  | XPInf, XNInf | XNInf, XPInf => XNaN
  | XPInf, _ | _, XPInf => XPInf
  | XNInf, _ | _, XNInf => XNInf
  | XFin a, XFin b => XFin (a + b)
  end.

Definition xsub (x y : xr) : xr := xadd x (xopp y).

(** sign of a real: -1, 0, 1 *)
Definition rsgn (r : R) : Z :=
  if Rlt_dec r 0 then (-1)%Z else if Rlt_dec 0 r then 1%Z else 0%Z.

(** infinity with the sign [s] of a product/quotient; 0 * inf is NaN *)
Definition xinf_s (s : Z) : xr :=
  match s with Z0 => XNaN | Zpos _ => XPInf | Zneg _ => XNInf end.

Definition xmul (x y : xr) : xr :=
  match x, y with
  | XNaN, _ | _, XNaN => XNaN
  | XPInf, XPInf | XNInf, XNInf => XPInf
  | XPInf, XNInf | XNInf, XPInf => XNInf
  | XPInf, XFin b => xinf_s (rsgn b)
  | XNInf, XFin b => xinf_s (- rsgn b)
  | XFin a, XPInf => xinf_s (rsgn a)
  | XFin a, XNInf => xinf_s (- rsgn a)
  | XFin a, XFin b => XFin (a * b)
  end.

(** division; the single zero behaves like IEEE +0 *)
Definition xdiv (x y : xr) : xr :=
  match x, y with
  | XNaN, _ | _, XNaN => XNaN
  | XPInf, XPInf | XNInf, XNInf | XPInf, XNInf | XNInf, XPInf => XNaN
  | XPInf, XFin b => if Rlt_dec b 0 then XNInf else XPInf
  | XNInf, XFin b => if Rlt_dec b 0 then XPInf else XNInf
  | XFin _, XPInf | XFin _, XNInf => XFin 0
  | XFin a, XFin b =>
      if Req_EM_T b 0 then xinf_s (rsgn a) else XFin (a / b)
  end.

Definition xsqrt (x : xr) : xr :=
  match x with
  | XNaN | XNInf => XNaN
  | XPInf => XPInf
  | XFin a => if Rlt_dec a 0 then XNaN else XFin (sqrt a)
  end.

Definition xlt (x y : xr) : bool :=
  match x, y with
  | XNaN, _ | _, XNaN => false
  | XNInf, XNInf => false
  | XNInf, _ => true
  | _, XNInf => false
  | XPInf, _ => false
  | _, XPInf => true
  | XFin a, XFin b => if Rlt_dec a b then true else false
  end.

Definition xle (x y : xr) : bool :=
  match x, y with
  | XNaN, _ | _, XNaN => false
  | XNInf, _ => true
  | _, XNInf => false
  | _, XPInf => true
  | XPInf, _ => false
  | XFin a, XFin b => if Rle_dec a b then true else false
  end.

Definition xeq (x y : xr) : bool :=
  match x, y with
  | XNInf, XNInf | XPInf, XPInf => true
  | XFin a, XFin b => if Req_EM_T a b then true else false
  | _, _ => false
  end.

Definition xisnan (x : xr) : bool := match x with XNaN => true | _ => false end.
Definition xisfin (x : xr) : bool := match x with XFin _ => true | _ => false end.

#[global] Instance Num_xr : Num xr := {
  nofZ := fun z => XFin (IZR z);
  nadd := xadd;
  nsub := xsub;
  nmul := xmul;
  ndiv := xdiv;
  nopp := xopp;
  nsqrt := xsqrt;
  ninf := XPInf;
  nnan := XNaN;
  nlt := xlt;
  nle := xle;
  neq := xeq;
  nisnan := xisnan;
  nisfin := xisfin
}.

(* ------------------------------------------------------------------ *)
(** ** Comparison laws

    Both instances order their values like extended reals: [toX] gives the
    extended real a value stands for and every comparison factors through it.
    [CmpLaws] is proved below for both instances; it is used only inside
    proofs. *)

Record CmpLaws (V : Type) (N : Num V) (toX : V -> xr) : Prop := {
  cl_lt : forall x y, nlt x y = xlt (toX x) (toX y);
  cl_le : forall x y, nle x y = xle (toX x) (toX y);
  cl_eq : forall x y, neq x y = xeq (toX x) (toX y);
  cl_nan : forall x, nisnan x = xisnan (toX x);
  cl_fin : forall x, nisfin x = xisfin (toX x);
  cl_inf : toX ninf = XPInf;
  cl_ninf : toX nninf = XNInf;
  cl_0 : toX n0 = XFin 0;
  cl_1 : toX n1 = XFin 1
}.

Definition f2x (x : f64) : xr :=
  match x with
  | B754_nan => XNaN
  | B754_infinity false => XPInf
  | B754_infinity true => XNInf
  | _ => XFin (B2R x)
  end.

Lemma xr_cmp : CmpLaws xr Num_xr (fun x => x).
Proof. constructor; try reflexivity. Qed.

Lemma f2x_fin x : is_finite x = true -> f2x x = XFin (B2R x).
Proof. destruct x; try reflexivity; discriminate. Qed.

Lemma f64_ofZ_exact z : (Z.abs z <= 2 ^ 53)%Z ->
  B2R (f64_ofZ z) = IZR z /\ is_finite (f64_ofZ z) = true.
Proof.
  intros Hz. unfold f64_ofZ.
  pose proof (binary_normalize_correct 53 1024 prec53 emax1024 mode_NE z 0 false) as H.
  cbv zeta in H.
  replace (F2R {| Fnum := z; Fexp := 0 |}) with (IZR z) in H
    by (unfold F2R; simpl; ring).
  assert (G : generic_format radix2 (SpecFloat.fexp 53 1024) (IZR z)).
  { destruct (Z.eq_dec (Z.abs z) (2 ^ 53)) as [E|E].
    - assert (E' : (z = 2^53 \/ z = -2^53)%Z) by lia.
      assert (P : generic_format radix2 (SpecFloat.fexp 53 1024) (bpow radix2 53)).
      { apply (generic_format_bpow radix2 (SpecFloat.fexp 53 1024)).
        vm_compute. discriminate. }
      destruct E' as [E'|E']; rewrite E'.
      + exact P.
      + replace (IZR (- 2 ^ 53)) with (- bpow radix2 53)%R.
        * now apply generic_format_opp.
        * rewrite opp_IZR. reflexivity.
    - apply (generic_format_FLT radix2 (SpecFloat.emin 53 1024) 53).
      exists (Float radix2 z 0).
      + unfold F2R; simpl; ring.
      + simpl. lia.
      + simpl. vm_compute. discriminate. }
  rewrite (round_generic radix2 _ _ _ G) in H.
  rewrite Rlt_bool_true in H.
  - destruct H as (H1 & H2 & _). split; assumption.
  - rewrite <- abs_IZR.
    apply Rle_lt_trans with (IZR (2 ^ 53)).
    + apply IZR_le; lia.
    + change (IZR (2^53)) with (bpow radix2 53). apply bpow_lt. lia.
Qed.

Lemma f2x_ofZ z : (Z.abs z <= 2 ^ 53)%Z -> f2x (f64_ofZ z) = XFin (IZR z).
Proof.
  intros Hz. destruct (f64_ofZ_exact z Hz) as (H1 & H2).
  rewrite f2x_fin by assumption. now rewrite H1.
Qed.

Lemma f64_cmp : CmpLaws f64 Num_f64 f2x.
Proof.
  constructor; simpl.
  - intros x y.
    destruct (is_finite x) eqn:Fx; destruct (is_finite y) eqn:Fy.
    + rewrite Bltb_correct, (f2x_fin x), (f2x_fin y) by assumption; simpl.
      destruct (Rlt_dec (B2R x) (B2R y)) as [L|L].
      * now apply Rlt_bool_true.
      * apply Rlt_bool_false. lra.
    + destruct x as [ s1 | [|] | | s1 m1 e1 H1 ], y as [ s2 | [|] | | s2 m2 e2 H2 ]; try discriminate; try reflexivity;
      try destruct s1; try destruct s2; reflexivity.
    + destruct x as [ s1 | [|] | | s1 m1 e1 H1 ], y as [ s2 | [|] | | s2 m2 e2 H2 ]; try discriminate; try reflexivity;
      try destruct s1; try destruct s2; reflexivity.
    + destruct x as [ s1 | [|] | | s1 m1 e1 H1 ], y as [ s2 | [|] | | s2 m2 e2 H2 ]; try discriminate; reflexivity.
  - intros x y.
    destruct (is_finite x) eqn:Fx; destruct (is_finite y) eqn:Fy.
    + rewrite Bleb_correct, (f2x_fin x), (f2x_fin y) by assumption; simpl.
      destruct (Rle_dec (B2R x) (B2R y)) as [L|L].
      * now apply Rle_bool_true.
      * apply Rle_bool_false. lra.
    + destruct x as [ s1 | [|] | | s1 m1 e1 H1 ], y as [ s2 | [|] | | s2 m2 e2 H2 ]; try discriminate; try reflexivity;
      try destruct s1; try destruct s2; reflexivity.
    + destruct x as [ s1 | [|] | | s1 m1 e1 H1 ], y as [ s2 | [|] | | s2 m2 e2 H2 ]; try discriminate; try reflexivity;
      try destruct s1; try destruct s2; reflexivity.
    + destruct x as [ s1 | [|] | | s1 m1 e1 H1 ], y as [ s2 | [|] | | s2 m2 e2 H2 ]; try discriminate; reflexivity.
  - intros x y.
    destruct (is_finite x) eqn:Fx; destruct (is_finite y) eqn:Fy.
    + rewrite Beqb_correct, (f2x_fin x), (f2x_fin y) by assumption; simpl.
      destruct (Req_EM_T (B2R x) (B2R y)) as [L|L].
      * now apply Req_bool_true.
      * now apply Req_bool_false.
    + destruct x as [ s1 | [|] | | s1 m1 e1 H1 ], y as [ s2 | [|] | | s2 m2 e2 H2 ]; try discriminate; try reflexivity;
      try destruct s1; try destruct s2; reflexivity.
    + destruct x as [ s1 | [|] | | s1 m1 e1 H1 ], y as [ s2 | [|] | | s2 m2 e2 H2 ]; try discriminate; try reflexivity;
      try destruct s1; try destruct s2; reflexivity.
    + destruct x as [ s1 | [|] | | s1 m1 e1 H1 ], y as [ s2 | [|] | | s2 m2 e2 H2 ]; try discriminate; reflexivity.
  - intros [s|[|]| |s m e H]; reflexivity.
  - intros [s|[|]| |s m e H]; reflexivity.
  - reflexivity.
  - reflexivity.
  - apply (f2x_ofZ 0). vm_compute. discriminate.
  - apply (f2x_ofZ 1). vm_compute. discriminate.
Qed.

(* ------------------------------------------------------------------ *)
(** ** Order facts on [xr], then on every instance *)

Ltac xr_tac :=
  repeat match goal with
  | x : xr |- _ => destruct x
  end; simpl in *; try discriminate; try reflexivity; try congruence;
  repeat match goal with
  | H : context [Rlt_dec ?a ?b] |- _ => destruct (Rlt_dec a b)
  | |- context [Rlt_dec ?a ?b] => destruct (Rlt_dec a b)
  | H : context [Rle_dec ?a ?b] |- _ => destruct (Rle_dec a b)
  | |- context [Rle_dec ?a ?b] => destruct (Rle_dec a b)
  | H : context [Req_EM_T ?a ?b] |- _ => destruct (Req_EM_T a b)
  | |- context [Req_EM_T ?a ?b] => destruct (Req_EM_T a b)
  end; simpl in *; try discriminate; try reflexivity; try lra; try congruence;
  try (f_equal; lra); try (exfalso; lra).

Section CmpFacts.
  Context {V : Type} {N : Num V} {toX : V -> xr} (CL : CmpLaws V N toX).

  Ltac to_xr :=
    unfold sle in *;
    rewrite ?(cl_lt _ _ _ CL), ?(cl_le _ _ _ CL), ?(cl_eq _ _ _ CL),
      ?(cl_nan _ _ _ CL), ?(cl_fin _ _ _ CL),
      ?(cl_inf _ _ _ CL), ?(cl_ninf _ _ _ CL) in *;
    repeat match goal with
    | v : V |- _ => let x := fresh "x" in
        generalize dependent v; intros v;
        generalize dependent (toX v); intros x
    end.

  Lemma sle_refl x : sle x x = true.
  Proof. unfold sle. rewrite (cl_nan _ _ _ CL), (cl_le _ _ _ CL).
         generalize (toX x); intros; xr_tac. Qed.
  Lemma sle_trans x y z : sle x y = true -> sle y z = true -> sle x z = true.
  Proof.
    unfold sle. rewrite !(cl_nan _ _ _ CL), !(cl_le _ _ _ CL).
    generalize (toX x), (toX y), (toX z); intros; xr_tac.
  Qed.
  Lemma sle_total x y : sle x y = true \/ sle y x = true.
  Proof.
    unfold sle. rewrite !(cl_nan _ _ _ CL), !(cl_le _ _ _ CL).
    generalize (toX x), (toX y); intros; xr_tac; auto.
  Qed.
  Lemma sle_false_lt x y : nisnan x = false -> nisnan y = false ->
    sle x y = negb (nlt y x).
  Proof.
    unfold sle. rewrite !(cl_nan _ _ _ CL), !(cl_le _ _ _ CL), !(cl_lt _ _ _ CL).
    generalize (toX x), (toX y); intros; xr_tac.
  Qed.
  Lemma nlt_irrefl x : nlt x x = false.
  Proof. rewrite (cl_lt _ _ _ CL). generalize (toX x); intros; xr_tac. Qed.
  Lemma nlt_trans x y z : nlt x y = true -> nlt y z = true -> nlt x z = true.
  Proof.
    rewrite !(cl_lt _ _ _ CL). generalize (toX x), (toX y), (toX z); intros; xr_tac.
  Qed.
  Lemma nlt_sle x y : nlt x y = true -> sle x y = true.
  Proof.
    unfold sle. rewrite !(cl_lt _ _ _ CL), !(cl_nan _ _ _ CL), !(cl_le _ _ _ CL).
    generalize (toX x), (toX y); intros; xr_tac.
  Qed.
  Lemma nlt_not_sle x y : nlt x y = true -> sle y x = false.
  Proof.
    unfold sle. rewrite !(cl_lt _ _ _ CL), !(cl_nan _ _ _ CL), !(cl_le _ _ _ CL).
    generalize (toX x), (toX y); intros; xr_tac.
  Qed.
  Lemma sle_inf x : nisnan x = false -> sle x ninf = true.
  Proof.
    unfold sle. rewrite !(cl_nan _ _ _ CL), !(cl_le _ _ _ CL), (cl_inf _ _ _ CL).
    generalize (toX x); intros; xr_tac.
  Qed.
  Lemma sle_ninf x : sle nninf x = true.
  Proof.
    unfold sle. rewrite !(cl_nan _ _ _ CL), !(cl_le _ _ _ CL), (cl_ninf _ _ _ CL).
    generalize (toX x); intros; xr_tac.
  Qed.
  Lemma fin_not_nan x : nisfin x = true -> nisnan x = false.
  Proof.
    rewrite (cl_nan _ _ _ CL), (cl_fin _ _ _ CL). generalize (toX x); intros; xr_tac.
  Qed.
  Lemma fin_lt_inf x : nisfin x = true -> nlt x ninf = true.
  Proof.
    rewrite (cl_lt _ _ _ CL), (cl_fin _ _ _ CL), (cl_inf _ _ _ CL).
    generalize (toX x); intros; xr_tac.
  Qed.
  Lemma ninf_lt_fin x : nisfin x = true -> nlt nninf x = true.
  Proof.
    rewrite (cl_lt _ _ _ CL), (cl_fin _ _ _ CL), (cl_ninf _ _ _ CL).
    generalize (toX x); intros; xr_tac.
  Qed.
  Lemma inf_not_fin : nisfin ninf = false.
  Proof. now rewrite (cl_fin _ _ _ CL), (cl_inf _ _ _ CL). Qed.
  Lemma ninf_not_fin : nisfin nninf = false.
  Proof. now rewrite (cl_fin _ _ _ CL), (cl_ninf _ _ _ CL). Qed.
  Lemma inf_not_nan : nisnan ninf = false.
  Proof. now rewrite (cl_nan _ _ _ CL), (cl_inf _ _ _ CL). Qed.
  Lemma ninf_not_nan : nisnan nninf = false.
  Proof. now rewrite (cl_nan _ _ _ CL), (cl_ninf _ _ _ CL). Qed.
  Lemma nle_lt_eq x y : nle x y = nlt x y || neq x y.
  Proof.
    rewrite (cl_le _ _ _ CL), (cl_lt _ _ _ CL), (cl_eq _ _ _ CL).
    generalize (toX x), (toX y); intros; xr_tac.
  Qed.
  Lemma nle_not_lt x y : nisnan x = false -> nisnan y = false ->
    nle x y = negb (nlt y x).
  Proof.
    rewrite !(cl_nan _ _ _ CL), !(cl_le _ _ _ CL), !(cl_lt _ _ _ CL).
    generalize (toX x), (toX y); intros; xr_tac.
  Qed.
  Lemma nlt_inf_false x : nlt ninf x = false.
  Proof. rewrite (cl_lt _ _ _ CL), (cl_inf _ _ _ CL). generalize (toX x); intros; xr_tac. Qed.
  Lemma nlt_ninf_false x : nlt x nninf = false.
  Proof. rewrite (cl_lt _ _ _ CL), (cl_ninf _ _ _ CL). generalize (toX x); intros; xr_tac. Qed.
  Lemma nlt_nan_r x y : nlt x y = true -> nisnan x = false /\ nisnan y = false.
  Proof.
    rewrite (cl_lt _ _ _ CL), !(cl_nan _ _ _ CL).
    generalize (toX x), (toX y); intros; xr_tac; auto.
  Qed.
  Lemma nle_nan_r x y : nle x y = true -> nisnan x = false /\ nisnan y = false.
  Proof.
    rewrite (cl_le _ _ _ CL), !(cl_nan _ _ _ CL).
    generalize (toX x), (toX y); intros; xr_tac; auto.
  Qed.
End CmpFacts.
