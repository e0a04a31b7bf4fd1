(** Rounding facts about float64 fractions. *)
From Coq Require Import ZArith Reals Lra Lia Bool.
From Flocq Require Import Core BinarySingleNaN.
From Verif Require Import Num.
Local Open Scope R_scope.

Definition rnd (x : R) : R := round radix2 (SpecFloat.fexp 53 1024) (round_mode mode_NE) x.

#[local] Instance vexp : Valid_exp (SpecFloat.fexp 53 1024) := fexp_correct 53 1024 prec53.
#[local] Instance vrnd : Valid_rnd (round_mode mode_NE) := valid_rnd_round_mode mode_NE.

Lemma rnd_le x y : x <= y -> rnd x <= rnd y.
Proof. intros H. unfold rnd. now apply round_le; try exact vexp; try exact vrnd. Qed.

Lemma rnd_gen x : generic_format radix2 (SpecFloat.fexp 53 1024) x -> rnd x = x.
Proof. intros H. unfold rnd. now apply round_generic; try exact vrnd. Qed.

Lemma gen_Z z : (Z.abs z < 2 ^ 53)%Z -> generic_format radix2 (SpecFloat.fexp 53 1024) (IZR z).
Proof.
  intros Hz. apply (generic_format_FLT radix2 (SpecFloat.emin 53 1024) 53).
  exists (Float radix2 z 0).
  - unfold F2R; simpl; ring.
  - simpl. lia.
  - simpl. vm_compute. discriminate.
Qed.

Lemma gen_Zm53 z : (Z.abs z < 2 ^ 53)%Z ->
  generic_format radix2 (SpecFloat.fexp 53 1024) (IZR z * bpow radix2 (-53)).
Proof.
  intros Hz. apply (generic_format_FLT radix2 (SpecFloat.emin 53 1024) 53).
  exists (Float radix2 z (-53)).
  - reflexivity.
  - simpl. lia.
  - simpl. vm_compute. discriminate.
Qed.

Lemma rnd_Z z : (Z.abs z < 2 ^ 53)%Z -> rnd (IZR z) = IZR z.
Proof. intros. apply rnd_gen. now apply gen_Z. Qed.
Lemma rnd_0 : rnd 0 = 0.
Proof. apply (rnd_Z 0). reflexivity. Qed.
Lemma rnd_1 : rnd 1 = 1.
Proof. apply (rnd_Z 1). reflexivity. Qed.

Lemma rnd_unit x : 0 <= x <= 1 -> 0 <= rnd x <= 1.
Proof. intros (H1 & H2). rewrite <- rnd_0, <- rnd_1 at 1. split; now apply rnd_le. Qed.

Lemma bpow1024_big : 2 < bpow radix2 1024.
Proof. change 2 with (bpow radix2 1). apply bpow_lt. reflexivity. Qed.

(** largest float64 below 1 is 1 - 2^-53 *)
Lemma rnd_lt1 x : x <= 1 - bpow radix2 (-53) -> rnd x <= 1 - bpow radix2 (-53).
Proof.
  intros H. rewrite <- (rnd_gen (1 - bpow radix2 (-53))).
  - now apply rnd_le.
  - replace (1 - bpow radix2 (-53)) with (IZR (2^53 - 1) * bpow radix2 (-53)).
    + apply gen_Zm53. reflexivity.
    + rewrite minus_IZR. change (IZR (2^53)) with (bpow radix2 53).
      rewrite Rmult_minus_distr_r, <- bpow_plus. simpl. lra.
Qed.

Lemma rnd_gt0 x : bpow radix2 (-53) <= x -> bpow radix2 (-53) <= rnd x.
Proof.
  intros H. rewrite <- (rnd_gen (bpow radix2 (-53))) at 1.
  - now apply rnd_le.
  - replace (bpow radix2 (-53)) with (IZR 1 * bpow radix2 (-53)) by ring.
    apply gen_Zm53. reflexivity.
Qed.

Lemma f64_ofZ_sign z : (0 <= z <= 2 ^ 53)%Z -> Bsign (f64_ofZ z) = false.
Proof.
  intros Hz. destruct (f64_ofZ_exact z) as (E & F); [lia|].
  unfold f64_ofZ in *.
  pose proof (binary_normalize_correct 53 1024 prec53 emax1024 mode_NE z 0 false) as H.
  cbv zeta in H.
  replace (F2R {| Fnum := z; Fexp := 0 |}) with (IZR z) in H by (unfold F2R; simpl; ring).
  destruct (Rlt_bool _ _) eqn:B in H.
  - destruct H as (_ & _ & H). rewrite H.
    destruct (Rcompare_spec (IZR z) 0) as [L|L|L]; try reflexivity.
    exfalso. apply lt_IZR in L. lia.
  - exfalso. destruct (binary_normalize 53 1024 prec53 emax1024 mode_NE z 0 false);
      simpl in *; try discriminate.
Qed.

Definition is_unit (x : f64) : Prop :=
  is_finite x = true /\ Bsign x = false /\ 0 <= B2R x <= 1.

Lemma frac_correct c n : (c <= n)%nat -> (0 < n)%nat -> (Z.of_nat n <= 2 ^ 53)%Z ->
  is_unit (ndiv (nofnat c) (nofnat n)) /\
  B2R (ndiv (V:=f64) (nofnat c) (nofnat n)) = rnd (INR c / INR n).
Proof.
  intros Hc Hn Hb. unfold nofnat. simpl.
  destruct (f64_ofZ_exact (Z.of_nat c)) as (Ec & Fc); [lia|].
  destruct (f64_ofZ_exact (Z.of_nat n)) as (En & Fn); [lia|].
  assert (Pn : 0 < IZR (Z.of_nat n)) by (apply IZR_lt; lia).
  pose proof (Bdiv_correct 53 1024 prec53 emax1024 mode_NE (f64_ofZ (Z.of_nat c))
     (f64_ofZ (Z.of_nat n))) as H.
  rewrite En, Ec in H. specialize (H ltac:(lra)).
  assert (U : 0 <= IZR (Z.of_nat c) / IZR (Z.of_nat n) <= 1).
  { split.
    - apply Rmult_le_pos; [apply IZR_le; lia|]. left. now apply Rinv_0_lt_compat.
    - apply (Rmult_le_reg_r (IZR (Z.of_nat n))); [assumption|].
      unfold Rdiv. rewrite Rmult_assoc, Rinv_l, Rmult_1_r, Rmult_1_l by lra.
      apply IZR_le. lia. }
  pose proof (rnd_unit _ U) as Ur. fold (rnd (IZR (Z.of_nat c) / IZR (Z.of_nat n))) in H.
  rewrite Rlt_bool_true in H.
  2:{ rewrite Rabs_pos_eq by lra. pose proof bpow1024_big. lra. }
  destruct H as (H1 & H2 & H3). rewrite Fc in H2.
  rewrite !f64_ofZ_sign in H3 by lia.
  unfold is_unit. rewrite !INR_IZR_INZ. repeat split; auto; try (rewrite H1; lra).
  apply H3. destruct (Bdiv _ _ _); try reflexivity; discriminate.
Qed.

Lemma frac_unit c n : (c <= n)%nat -> (0 < n)%nat -> (Z.of_nat n <= 2 ^ 53)%Z ->
  is_unit (ndiv (nofnat c) (nofnat n)).
Proof. intros. now apply frac_correct. Qed.

Lemma compl_correct (y : f64) : is_unit y ->
  is_unit (nsub n1 y) /\ B2R (nsub n1 y) = rnd (1 - B2R y).
Proof.
  intros (F & S & U). change (nsub n1 y) with (Bminus mode_NE (f64_ofZ 1) y).
  destruct (f64_ofZ_exact 1) as (E1 & F1); [vm_compute; discriminate|].
  pose proof (Bminus_correct 53 1024 prec53 emax1024 mode_NE (f64_ofZ 1) y F1 F) as H.
  rewrite E1 in H.
  assert (U1 : 0 <= 1 - B2R y <= 1) by lra.
  pose proof (rnd_unit _ U1) as Ur. fold (rnd (1 - B2R y)) in H.
  rewrite Rlt_bool_true in H.
  2:{ rewrite Rabs_pos_eq by lra. pose proof bpow1024_big. lra. }
  destruct H as (H1 & H2 & H3).
  assert (SG : Bsign (Bminus mode_NE (f64_ofZ 1) y) = false).
  2:{ split; [|exact H1]. split; [exact H2|]. split; [exact SG|]. rewrite H1. lra. }
  rewrite H3, S. rewrite f64_ofZ_sign by (split; vm_compute; discriminate).
  destruct (Rcompare_spec (1 - B2R y) 0); try reflexivity. lra.
Qed.

Lemma add0_r (x : f64) : Bsign x = false -> nisfin x = true -> nadd x n0 = x.
Proof.
  unfold n0. simpl.
  destruct x as [[|]|s| |s m e H]; simpl; try discriminate; reflexivity.
Qed.
Lemma add0_l (x : f64) : Bsign x = false -> nisfin x = true -> nadd n0 x = x.
Proof.
  unfold n0. simpl.
  destruct x as [[|]|s| |s m e H]; simpl; try discriminate; reflexivity.
Qed.
Lemma unit_add0 (x : f64) : is_unit x -> nadd x n0 = x /\ nadd n0 x = x.
Proof. intros (F & S & _). split; [apply add0_r|apply add0_l]; auto. Qed.

Lemma nle_B2R (x y : f64) : is_finite x = true -> is_finite y = true ->
  (nle x y = true <-> B2R x <= B2R y).
Proof.
  intros Fx Fy. simpl. rewrite Bleb_correct by assumption.
  destruct (Rle_bool_spec (B2R x) (B2R y)); split; intros; try lra; try reflexivity; discriminate.
Qed.
Lemma nlt_B2R (x y : f64) : is_finite x = true -> is_finite y = true ->
  (nlt x y = true <-> B2R x < B2R y).
Proof.
  intros Fx Fy. simpl. rewrite Bltb_correct by assumption.
  destruct (Rlt_bool_spec (B2R x) (B2R y)); split; intros; try lra; try reflexivity; discriminate.
Qed.

Lemma n0_f64 : B2R (n0 (V:=f64)) = 0 /\ is_finite (n0 (V:=f64)) = true.
Proof. apply (f64_ofZ_exact 0). vm_compute. discriminate. Qed.
Lemma n1_f64 : B2R (n1 (V:=f64)) = 1 /\ is_finite (n1 (V:=f64)) = true.
Proof. apply (f64_ofZ_exact 1). vm_compute. discriminate. Qed.

Lemma n0_unit : is_unit n0.
Proof. destruct n0_f64 as (E & F). repeat split; auto; lra. Qed.
Lemma n1_unit : is_unit n1.
Proof.
  destruct n1_f64 as (E & F). repeat split; auto; try lra.
Qed.

Lemma unit_bounds (x : f64) : is_unit x -> nle n0 x = true /\ nle x n1 = true.
Proof.
  intros (F & _ & U). destruct n0_f64 as (E0 & F0), n1_f64 as (E1 & F1).
  split; apply nle_B2R; auto; lra.
Qed.

Lemma frac_mono c c' n : (c <= c' <= n)%nat -> (0 < n)%nat -> (Z.of_nat n <= 2 ^ 53)%Z ->
  nle (ndiv (V:=f64) (nofnat c) (nofnat n)) (ndiv (nofnat c') (nofnat n)) = true.
Proof.
  intros Hc Hn Hb.
  destruct (frac_correct c n) as ((F & _) & E); [lia|lia|lia|].
  destruct (frac_correct c' n) as ((F' & _) & E'); [lia|lia|lia|].
  apply nle_B2R; auto. rewrite E, E'. apply rnd_le.
  apply Rmult_le_compat_r.
  - left. apply Rinv_0_lt_compat. apply lt_0_INR. lia.
  - apply le_INR. lia.
Qed.

Lemma compl_anti (x y : f64) : is_unit x -> is_unit y -> nle x y = true ->
  nle (nsub n1 y) (nsub n1 x) = true.
Proof.
  intros Hx Hy H.
  destruct (compl_correct x Hx) as ((Fx & _) & Ex).
  destruct (compl_correct y Hy) as ((Fy & _) & Ey).
  apply nle_B2R; auto. rewrite Ex, Ey. apply rnd_le.
  destruct Hx as (Gx & _), Hy as (Gy & _). apply nle_B2R in H; auto. lra.
Qed.

(** c < n: the rounded fraction stays below 1 and its complement above 0 *)
Lemma frac_lt1 c n : (c < n)%nat -> (Z.of_nat n <= 2 ^ 53)%Z ->
  B2R (ndiv (V:=f64) (nofnat c) (nofnat n)) <= 1 - bpow radix2 (-53).
Proof.
  intros Hc Hb. destruct (frac_correct c n) as (_ & E); [lia|lia|lia|].
  rewrite E. apply rnd_lt1.
  assert (Pn : 0 < INR n) by (apply lt_0_INR; lia).
  assert (INR c <= INR n - 1).
  { replace 1 with (INR 1) by reflexivity. rewrite <- minus_INR by lia. apply le_INR. lia. }
  assert (bpow radix2 (-53) * INR n <= 1).
  { replace 1 with (bpow radix2 (-53) * bpow radix2 53) by (rewrite <- bpow_plus; reflexivity).
    apply Rmult_le_compat_l; [apply bpow_ge_0|].
    change (bpow radix2 53) with (IZR (2^53)). rewrite INR_IZR_INZ. now apply IZR_le. }
  apply (Rmult_le_reg_r (INR n)); [assumption|].
  unfold Rdiv. rewrite Rmult_assoc, Rinv_l by lra. lra.
Qed.

Lemma frac_lt1_nlt c n : (c < n)%nat -> (Z.of_nat n <= 2 ^ 53)%Z ->
  nlt (ndiv (V:=f64) (nofnat c) (nofnat n)) n1 = true.
Proof.
  intros Hc Hb. pose proof (frac_lt1 c n Hc Hb).
  destruct (frac_unit c n) as (F & _); [lia|lia|lia|].
  destruct n1_f64 as (E1 & F1). apply nlt_B2R; auto. rewrite E1.
  pose proof (bpow_gt_0 radix2 (-53)). lra.
Qed.

Lemma compl_frac_gt0 c n : (c < n)%nat -> (Z.of_nat n <= 2 ^ 53)%Z ->
  nlt n0 (nsub n1 (ndiv (V:=f64) (nofnat c) (nofnat n))) = true.
Proof.
  intros Hc Hb. pose proof (frac_lt1 c n Hc Hb).
  destruct (compl_correct (ndiv (V:=f64) (nofnat c) (nofnat n))) as ((F & _) & E).
  { apply frac_unit; lia. }
  destruct n0_f64 as (E0 & F0). apply nlt_B2R; auto. rewrite E0, E.
  assert (bpow radix2 (-53) <= rnd (1 - B2R (ndiv (V:=f64) (nofnat c) (nofnat n)))).
  { apply rnd_gt0. lra. }
  pose proof (bpow_gt_0 radix2 (-53)). lra.
Qed.

(** sums of non-negative values, one of them positive, are not zero *)
Lemma pos_add_f64 (a b : f64) : nle n0 a = true -> nle n0 b = true ->
  nlt n0 a = true \/ nlt n0 b = true -> neq (nadd a b) n0 = false.
Proof.
  intros Ha Hb Hp.
  assert (FA : is_finite a = true \/ a = B754_infinity false).
  { destruct a as [s|[|]| |s m e H]; auto; discriminate. }
  assert (FB : is_finite b = true \/ b = B754_infinity false).
  { destruct b as [s|[|]| |s m e H]; auto; discriminate. }
  destruct FA as [FA|FA].
  2:{ subst a. destruct FB as [FB|FB]; [|subst b; reflexivity].
      destruct b as [s|[|]| |s m e H]; try discriminate; reflexivity. }
  destruct FB as [FB|FB].
  2:{ subst b. destruct a as [s|[|]| |s m e H]; try discriminate; reflexivity. }
  destruct n0_f64 as (Z0 & F0).
  assert (PA : 0 <= B2R a).
  { rewrite (cl_le _ _ _ f64_cmp), (cl_0 _ _ _ f64_cmp), (f2x_fin a FA) in Ha. simpl in Ha.
    destruct (Rle_dec 0 (B2R a)); [assumption|discriminate]. }
  assert (PB : 0 <= B2R b).
  { rewrite (cl_le _ _ _ f64_cmp), (cl_0 _ _ _ f64_cmp), (f2x_fin b FB) in Hb. simpl in Hb.
    destruct (Rle_dec 0 (B2R b)); [assumption|discriminate]. }
  assert (PP : 0 < B2R a \/ 0 < B2R b).
  { destruct Hp as [Hp|Hp]; [left|right];
      rewrite (cl_lt _ _ _ f64_cmp), (cl_0 _ _ _ f64_cmp) in Hp;
      rewrite ?(f2x_fin a FA), ?(f2x_fin b FB) in Hp; simpl in Hp.
    - destruct (Rlt_dec 0 (B2R a)); [assumption|discriminate].
    - destruct (Rlt_dec 0 (B2R b)); [assumption|discriminate]. }
  pose proof (Bplus_correct 53 1024 prec53 emax1024 mode_NE a b FA FB) as H.
  fold (rnd (B2R a + B2R b)) in H.
  assert (PR : 0 < rnd (B2R a + B2R b)).
  { destruct PP as [PP|PP].
    - apply Rlt_le_trans with (B2R a); [assumption|].
      rewrite <- (rnd_gen (B2R a)) at 1 by apply generic_format_B2R. apply rnd_le. lra.
    - apply Rlt_le_trans with (B2R b); [assumption|].
      rewrite <- (rnd_gen (B2R b)) at 1 by apply generic_format_B2R. apply rnd_le. lra. }
  rewrite (cl_eq _ _ _ f64_cmp), (cl_0 _ _ _ f64_cmp). simpl nadd.
  destruct (Rlt_bool (Rabs (rnd (B2R a + B2R b))) (bpow radix2 1024)).
  - destruct H as (H1 & H2 & _). rewrite (f2x_fin _ H2), H1. simpl.
    destruct (Req_EM_T (rnd (B2R a + B2R b)) 0); [lra|reflexivity].
  - destruct H as (H1 & H2).
    destruct (Bplus mode_NE a b) as [s|[|]| |s m e Hm]; simpl in H1; try discriminate; reflexivity.
Qed.

(** rounding error on [0,1] *)
Lemma rnd_err x : 0 <= x <= 1 -> Rabs (rnd x - x) <= bpow radix2 (-53).
Proof.
  intros Hx. unfold rnd.
  change (round_mode mode_NE) with (Znearest (fun x => negb (Z.even x))).
  eapply Rle_trans; [apply error_le_half_ulp; exact vexp|].
  assert (U : ulp radix2 (SpecFloat.fexp 53 1024) x <= bpow radix2 (-52)).
  { apply Rle_trans with (ulp radix2 (SpecFloat.fexp 53 1024) 1).
    - apply ulp_le; [exact vexp|change (SpecFloat.fexp 53 1024) with (FLT_exp (3 - 1024 - 53) 53); apply FLT_exp_monotone|].
      rewrite !Rabs_pos_eq by lra. lra.
    - change 1 with (bpow radix2 0). rewrite ulp_bpow. apply Rle_refl. }
  assert (E : bpow radix2 (-52) = 2 * bpow radix2 (-53)).
  { change 2 with (bpow radix2 1). rewrite <- bpow_plus. reflexivity. }
  lra.
Qed.

(** 1 - fl((n-c)/n) and fl(c/n) differ by at most 2^-51 *)
Lemma frac_compl_close c n : (c <= n)%nat -> (0 < n)%nat -> (Z.of_nat n <= 2 ^ 53)%Z ->
  Rabs (B2R (nsub (V:=f64) n1 (ndiv (nofnat (n - c)) (nofnat n)))
        - B2R (ndiv (V:=f64) (nofnat c) (nofnat n))) <= bpow radix2 (-51).
Proof.
  intros Hc Hn Hb.
  destruct (frac_correct c n Hc Hn Hb) as (U1 & E1).
  destruct (frac_correct (n - c) n ltac:(lia) Hn Hb) as (U2 & E2).
  destruct (compl_correct _ U2) as (U3 & E3). rewrite E3, E1, E2.
  assert (P : 0 < INR n) by (apply lt_0_INR; lia).
  assert (Q : INR (n - c) / INR n = 1 - INR c / INR n).
  { rewrite minus_INR by assumption. field. lra. }
  assert (B : 0 <= INR c / INR n <= 1).
  { split; [apply Rmult_le_pos; [apply pos_INR|left; now apply Rinv_0_lt_compat]|].
    apply (Rmult_le_reg_r (INR n)); [assumption|].
    unfold Rdiv. rewrite Rmult_assoc, Rinv_l, Rmult_1_r, Rmult_1_l by lra. now apply le_INR. }
  rewrite Q. set (q := INR c / INR n) in *.
  pose proof (rnd_err q B) as R1.
  assert (B2 : 0 <= 1 - q <= 1) by lra.
  pose proof (rnd_err (1 - q) B2) as R2. pose proof (rnd_unit _ B2) as R2'.
  assert (B3 : 0 <= 1 - rnd (1 - q) <= 1) by lra.
  pose proof (rnd_err _ B3) as R3.
  assert (E : bpow radix2 (-51) = 4 * bpow radix2 (-53)).
  { change 4 with (bpow radix2 2). rewrite <- bpow_plus. reflexivity. }
  pose proof (bpow_gt_0 radix2 (-53)).
  apply Rabs_le. apply Rabs_le_inv in R1. apply Rabs_le_inv in R2. apply Rabs_le_inv in R3. lra.
Qed.
