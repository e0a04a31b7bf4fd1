(** Property C202: the timing records of the approximate method. *)
From Coq Require Import String.
From Coq Require Import ZArith List Arith Lia Bool Reals Lra.
From Flocq Require Import Core BinarySingleNaN.
From Verif Require Import Py Num P_F64 M_Times.
Import ListNotations.
Local Open Scope nat_scope.

(** ** Specification *)
(** the work that call [c] finished and timed: from the first reading to the second *)
Definition fitted_in {V} (c : call V) : option (tms V * tms V) :=
  match c with CFit a b None => Some (a, b) | _ => None end.
Definition transformed_in {V} (c : call V) : option (tms V * tms V) :=
  match c with CTransform a b None _ => Some (a, b) | CPredict None a b None _ _ _ _ => Some (a, b) | _ => None end.
Definition predicted_in {V} (c : call V) : option (tms V * tms V) :=
  match c with CPredict None _ _ None None a' b' None => Some (a', b') | _ => None end.
(** [r] is what [what] says of the last call of [h] that finished it *)
Definition of_last {V} {N : Num V} (what : call V -> option (tms V * tms V)) (h : list (call V)) (r : option (timing V)) : Prop :=
  (r = None /\ forall c, In c h -> what c = None) \/
  exists h1 c h2 a b, h = h1 ++ c :: h2 /\ what c = Some (a, b) /\ (forall c', In c' h2 -> what c' = None) /\ r = Some (times_row a b).
(** no exception of a call comes from its timing *)
Definition own_error {V} (c : call V) : option exc :=
  match c with
  | CFit _ _ w => w
  | CTransform _ _ w s => match w with Some e => Some e | None => s end
  | CPredict f _ _ w s _ _ k => match f with Some e => Some e | None => match w with Some e => Some e | None => match s with Some e => Some e | None => k end end end
  end.

(** ** History *)
Lemma of_last_step {V} {N : Num V} what (h : list (call V)) r c r' :
  of_last what h r -> match what c with Some (a, b) => r' = Some (times_row a b) | None => r' = r end -> of_last what (h ++ [c]) r'.
Proof.
  intros H E. destruct (what c) as [(a, b)|] eqn:W.
  - right. exists h, c, [], a, b. repeat split; auto. intros c' [].
  - subst r'. destruct H as [(-> & H)|(h1 & c0 & h2 & a & b & -> & W0 & H & ->)].
    + left. split; [reflexivity|]. intros c' Hc. apply in_app_iff in Hc as [Hc|[<-|[]]]; auto.
    + right. exists h1, c0, (h2 ++ [c]), a, b. rewrite <- app_assoc. repeat split; auto. intros c' Hc. apply in_app_iff in Hc as [Hc|[<-|[]]]; auto.
Qed.

Theorem C202_history :
  forall h : list (call f64),
    let st := do_calls h fresh in
    of_last fitted_in h (time_fit st) /\ of_last transformed_in h (time_transform st) /\ of_last predicted_in h (time_predict st).
Proof.
  intros h. cbv zeta. induction h as [|c h IH] using rev_ind.
  - cbn. repeat split; left; split; auto; intros c [].
  - unfold do_calls in *. rewrite fold_left_app. cbn [fold_left]. set (st := fold_left _ h fresh) in *. destruct IH as (I1 & I2 & I3).
    repeat split; (eapply of_last_step; [eassumption|]);
      destruct c as [a b [e|]|a b [e|] [e'|]|[e|] a b [e1|] [e2|] a' b' [e3|]]; reflexivity.
Qed.

Theorem C202_errors :
  forall (h : list (call f64)) c,
    snd (do_call c (do_calls h fresh)) = match own_error c with Some e => Raise e | None => Ok tt end.
Proof. intros h c. destruct c as [a b [e|]|a b [e|] [e'|]|[e|] a b [e1|] [e2|] a' b' [e3|]]; reflexivity. Qed.

(** ** Values *)
(** non-negative: finite or +inf, never NaN *)
Definition nonneg (x : f64) : Prop := nle n0 x = true.
(** a reading of the clocks, and a later one *)
Definition reading_before (a b : f64) : Prop := nisfin a = true /\ nisfin b = true /\ nle n0 a = true /\ nle a b = true.
Definition before (a b : tms f64) : Prop :=
  reading_before (t_user a) (t_user b) /\ reading_before (t_system a) (t_system b) /\ reading_before (t_cuser a) (t_cuser b) /\
  reading_before (t_csystem a) (t_csystem b) /\ reading_before (t_elapsed a) (t_elapsed b).

Lemma le_of (x y : f64) : is_finite x = true -> is_finite y = true -> (nle x y = true <-> (B2R x <= B2R y)%R).
Proof. intros Fx Fy. change (nle x y) with (Bleb x y). rewrite Bleb_correct by assumption. case Rle_bool_spec; intuition; try lra; discriminate. Qed.
Lemma sub_reading (a b : f64) : reading_before a b -> is_finite (nsub b a) = true /\ B2R (nsub b a) = rnd (B2R b - B2R a) /\ nonneg (nsub b a).
Proof.
  intros (Fa & Fb & Ha & Hab). change (is_finite a = true) in Fa. change (is_finite b = true) in Fb. destruct n0_f64 as (Z0 & F0).
  apply le_of in Ha; [|assumption|assumption]. rewrite Z0 in Ha. apply le_of in Hab; [|assumption|assumption].
  pose proof (Bminus_correct 53 1024 prec53 emax1024 mode_NE b a Fb Fa) as H. fold (rnd (B2R b - B2R a)) in H.
  assert (L : (0 <= rnd (B2R b - B2R a) <= B2R b)%R).
  { split; [rewrite <- (rnd_gen 0) by apply generic_format_0; apply rnd_le; lra|]. rewrite <- (rnd_gen (B2R b)) at 2 by apply generic_format_B2R. apply rnd_le. lra. }
  rewrite Rlt_bool_true in H.
  - destruct H as (H1 & H2 & _). split; [exact H2|]. split; [exact H1|]. apply le_of; [assumption|exact H2|]. rewrite Z0. change (0 <= B2R (Bminus mode_NE b a))%R. rewrite H1. lra.
  - rewrite Rabs_pos_eq by lra. apply Rle_lt_trans with (1 := proj2 L). apply Rle_lt_trans with (Rabs (B2R b)); [apply Rle_abs|apply abs_B2R_lt_emax].
Qed.
Lemma nonneg_cases (x : f64) : nonneg x -> x = B754_infinity false \/ is_finite x = true /\ (0 <= B2R x)%R.
Proof.
  intros H. assert (F : is_finite x = true \/ x = B754_infinity false) by (destruct x as [s|[|]| |s m e Hm]; auto; discriminate).
  destruct F as [F| ->]; [right|now left]. split; [exact F|]. destruct n0_f64 as (Z0 & F0). apply le_of in H; [|assumption|exact F]. now rewrite Z0 in H.
Qed.
Lemma nonneg_sign (x : f64) : nonneg x -> Bsign x = false \/ (B2R x = 0)%R.
Proof. intros H. destruct x as [s|[|]| |[|] m e Hm]; cbn; auto; discriminate. Qed.
Lemma add_nonneg (x y : f64) : nonneg x -> nonneg y -> nonneg (nadd x y) /\ nle x (nadd x y) = true /\ nle y (nadd x y) = true.
Proof.
  intros Hx Hy. pose proof (nonneg_cases x Hx) as Cx. pose proof (nonneg_cases y Hy) as Cy.
  assert (Inf : forall z : f64, nonneg z -> nle z (B754_infinity false : f64) = true) by (intros z Hz; destruct z as [s|[|]| |[|] m e Hm]; try reflexivity; discriminate).
  destruct Cx as [->|(Fx & Px)].
  { assert (E : nadd (B754_infinity false : f64) y = B754_infinity false) by (destruct y as [s|[|]| |s m e Hm]; try reflexivity; discriminate). rewrite E. repeat split; auto. }
  destruct Cy as [->|(Fy & Py)].
  { assert (E : nadd x (B754_infinity false : f64) = B754_infinity false) by (destruct x as [s|[|]| |s m e Hm]; try reflexivity; discriminate). rewrite E. repeat split; auto. }
  pose proof (Bplus_correct 53 1024 prec53 emax1024 mode_NE x y Fx Fy) as H. fold (rnd (B2R x + B2R y)) in H. destruct n0_f64 as (Z0 & F0).
  assert (L : (B2R x <= rnd (B2R x + B2R y) /\ B2R y <= rnd (B2R x + B2R y))%R).
  { split; [rewrite <- (rnd_gen (B2R x)) at 1 by apply generic_format_B2R|rewrite <- (rnd_gen (B2R y)) at 1 by apply generic_format_B2R]; apply rnd_le; lra. }
  change (nadd x y) with (Bplus mode_NE x y). destruct (Rlt_bool _ _) eqn:Eb.
  - destruct H as (H1 & H2 & _). unfold nonneg. rewrite !le_of, Z0, H1 by assumption. lra.
  - destruct H as (H1 & H2). assert (E : Bplus mode_NE x y = B754_infinity false).
    { assert (Sx : Bsign x = false \/ (B2R x = 0)%R). { now apply nonneg_sign. }
      destruct Sx as [Sx|Zx].
      - rewrite Sx in H1. destruct (Bplus mode_NE x y) as [s|s| |s m e Hm]; cbn in H1; try discriminate. now injection H1 as ->.
      - exfalso. revert Eb. rewrite Zx, Rplus_0_l, rnd_gen by apply generic_format_B2R. rewrite Rlt_bool_true by apply abs_B2R_lt_emax. discriminate. }
    rewrite E. repeat split; auto.
Qed.
Lemma div_nonneg (x y : f64) : nonneg x -> is_finite y = true -> (0 < B2R y)%R -> nonneg (ndiv x y).
Proof.
  intros Hx Fy Py. destruct (nonneg_cases x Hx) as [->|(Fx & Px)].
  - destruct y as [s|s| |[|] m e Hm]; cbn in Py; try lra; try discriminate; [|reflexivity].
    exfalso. pose proof (F2R_lt_0 radix2 (Float radix2 (Zneg m) e) ltac:(cbn; lia)). cbn in *. lra.
  - assert (Hy : B2R y <> 0%R) by lra. pose proof (Bdiv_correct 53 1024 prec53 emax1024 mode_NE x y Hy) as H. fold (rnd (B2R x / B2R y)) in H. destruct n0_f64 as (Z0 & F0).
    assert (Q : (0 <= B2R x / B2R y)%R) by (apply Rmult_le_pos; [exact Px|left; now apply Rinv_0_lt_compat]).
    assert (L : (0 <= rnd (B2R x / B2R y))%R) by (rewrite <- (rnd_gen 0) by apply generic_format_0; now apply rnd_le).
    destruct (Rlt_bool _ _) eqn:Eb.
    + destruct H as (H1 & H2 & _). rewrite Fx in H2. unfold nonneg. rewrite le_of, Z0 by assumption. change (0 <= B2R (Bdiv mode_NE x y))%R. now rewrite H1.
    + unfold nonneg. change (nle n0 (Bdiv mode_NE x y) = true). assert (Sg : Bsign y = false).
      { destruct y as [s|s| |[|] m e Hm]; cbn in *; auto; try lra. exfalso. pose proof (F2R_lt_0 radix2 (Float radix2 (Zneg m) e) ltac:(cbn; lia)). cbn in *. lra. }
      assert (Sx : Bsign x = false \/ (B2R x = 0)%R). { now apply nonneg_sign. }
      destruct Sx as [Sx|Zx].
      * rewrite Sx, Sg in H. destruct (Bdiv mode_NE x y) as [s|s| |s m e Hm]; cbn in H; try discriminate. now injection H as ->.
      * exfalso. revert Eb. rewrite Zx. unfold Rdiv. rewrite Rmult_0_l, rnd_gen by apply generic_format_0. rewrite Rabs_R0, Rlt_bool_true by apply bpow_gt_0. discriminate.
Qed.
Lemma le_trans_f64 (x y z : f64) : nle x y = true -> nle y z = true -> nle x z = true.
Proof.
  rewrite !(cl_le _ _ _ f64_cmp). destruct (f2x x), (f2x y), (f2x z); cbn; try discriminate; try reflexivity.
  destruct (Rle_dec r r0), (Rle_dec r0 r1), (Rle_dec r r1); try discriminate; try reflexivity. exfalso. lra.
Qed.

Theorem C202_values :
  forall a b : tms f64, before a b ->
    let t := times_row a b in
    nonneg (d_user t) /\ nonneg (d_system t) /\ nonneg (d_cuser t) /\ nonneg (d_csystem t) /\ nonneg (d_elapsed t) /\
    nonneg (d_total t) /\ nonneg (d_speedup t) /\
    nle (d_user t) (d_total t) = true /\ nle (d_system t) (d_total t) = true /\
    nle (d_cuser t) (d_total t) = true /\ nle (d_csystem t) (d_total t) = true /\
    (neq (d_elapsed t) n0 = true -> d_speedup t = n0) /\
    (neq (d_elapsed t) n0 = false -> d_speedup t = ndiv (d_total t) (d_elapsed t)) /\
    B2R (d_elapsed t) = rnd (B2R (t_elapsed b) - B2R (t_elapsed a)).
Proof.
  intros a b (B1 & B2 & B3 & B4 & B5). cbv zeta. unfold times_row. cbn [d_user d_system d_cuser d_csystem d_elapsed d_total d_speedup].
  destruct (sub_reading _ _ B1) as (_ & _ & N1). destruct (sub_reading _ _ B2) as (_ & _ & N2). destruct (sub_reading _ _ B3) as (_ & _ & N3).
  destruct (sub_reading _ _ B4) as (_ & _ & N4). destruct (sub_reading _ _ B5) as (F5 & E5 & N5).
  set (u := nsub (t_user b) _) in *. set (s := nsub (t_system b) _) in *. set (cu := nsub (t_cuser b) _) in *. set (cs := nsub (t_csystem b) _) in *. set (el := nsub (t_elapsed b) _) in *.
  destruct (add_nonneg u s N1 N2) as (M1 & U1 & U2). destruct (add_nonneg _ cu M1 N3) as (M2 & U3 & U4). destruct (add_nonneg _ cs M2 N4) as (M3 & U5 & U6).
  set (tot := nadd (nadd (nadd u s) cu) cs) in *.
  assert (Sp : nonneg (match pydiv tot el with Ok q => q | Raise _ => n0 end)).
  { unfold pydiv. destruct (neq el n0) eqn:Z; [reflexivity|]. apply div_nonneg; [exact M3|exact F5|].
    destruct (nonneg_cases el N5) as [->|(_ & P)]; [discriminate|]. destruct P as [P|P]; [exact P|exfalso].
    assert (Q : neq el n0 = true); [|congruence]. change (Beqb el (n0 : f64) = true). destruct n0_f64 as (Z0 & F0). rewrite Beqb_correct by assumption. apply Req_bool_true. transitivity 0%R; [now symmetry|now symmetry]. }
  pose proof (le_trans_f64 _ _ _ U3 U5) as U35.
  split; [exact N1|]. split; [exact N2|]. split; [exact N3|]. split; [exact N4|]. split; [exact N5|]. split; [exact M3|]. split; [exact Sp|].
  split; [exact (le_trans_f64 _ _ _ U1 U35)|]. split; [exact (le_trans_f64 _ _ _ U2 U35)|]. split; [exact (le_trans_f64 _ _ _ U4 U5)|]. split; [exact U6|].
  split; [unfold pydiv; now intros ->|]. split; [unfold pydiv; now intros ->|]. exact E5.
Qed.

(** ** The hypotheses can be met *)
Definition reading (u s cu cs e : Z) : tms f64 := Tms (nofZ u) (nofZ s) (nofZ cu) (nofZ cs) (nofZ e).
Example C202_case : before (reading 5 1 0 0 100) (reading 7 1 8 2 103) /\
  (let t := times_row (reading 5 1 0 0 100) (reading 7 1 8 2 103) in neq (d_total t) (nofZ 12) && neq (d_speedup t) (nofZ 4)) = true /\
  (let h := [CFit (reading 0 0 0 0 0) (reading 1 0 0 0 1) None; CPredict None (reading 1 0 0 0 1) (reading 2 0 0 0 2) None None (reading 3 0 0 0 3) (reading 9 0 0 0 9) (Some ValueError)] in
   match time_predict (do_calls h fresh), time_transform (do_calls h fresh) with None, Some t => neq (d_elapsed t) n1 | _, _ => false end) = true.
Proof. split; [repeat split; vm_compute; reflexivity|]. split; vm_compute; reflexivity. Qed.

Print Assumptions C202_history.
Print Assumptions C202_errors.
Print Assumptions C202_values.
