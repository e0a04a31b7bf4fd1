(** Signs, ranges and powers of two in float64 products and quotients. *)
From Coq Require Import ZArith Reals Lra Lia Bool.
From Flocq Require Import Core BinarySingleNaN.
From Verif Require Import Num NumT P_F64 S_LSFloat.
Local Open Scope R_scope.

#[local] Instance vexp' : Valid_exp (SpecFloat.fexp 53 1024) := fexp_correct 53 1024 prec53.

Lemma overflow_inf s (x : f64) : B2SF x = binary_overflow 53 1024 mode_NE s -> x = B754_infinity s.
Proof. intros H. apply B2SF_inj. rewrite H. reflexivity. Qed.

(** finite product: finite with the rounded value, or an infinity; sign by the rule *)
Lemma mul_cases (x y : f64) : is_finite x = true -> is_finite y = true ->
  Bsign (nmul x y) = xorb (Bsign x) (Bsign y) /\
  ((Rabs (rnd (B2R x * B2R y)) < bpow radix2 1024 /\ is_finite (nmul x y) = true /\ B2R (nmul x y) = rnd (B2R x * B2R y)) \/
   (bpow radix2 1024 <= Rabs (rnd (B2R x * B2R y)) /\ nmul x y = B754_infinity (xorb (Bsign x) (Bsign y)))).
Proof.
  intros Fx Fy. change (nmul x y) with (Bmult mode_NE x y).
  pose proof (Bmult_correct 53 1024 prec53 emax1024 mode_NE x y) as H.
  fold (rnd (B2R x * B2R y)) in H.
  destruct (Rlt_bool_spec (Rabs (rnd (B2R x * B2R y))) (bpow radix2 1024)) as [L|L].
  - destruct H as (H1 & H2 & H3). rewrite Fx, Fy in H2. simpl in H2. split; [|left; auto].
    apply H3. destruct (Bmult _ _ _); auto; discriminate.
  - apply overflow_inf in H. rewrite H. split; [reflexivity|]. right. auto.
Qed.

Lemma div_cases (x y : f64) : is_finite x = true -> B2R y <> 0 ->
  Bsign (ndiv x y) = xorb (Bsign x) (Bsign y) /\
  ((Rabs (rnd (B2R x / B2R y)) < bpow radix2 1024 /\ is_finite (ndiv x y) = true /\ B2R (ndiv x y) = rnd (B2R x / B2R y)) \/
   (bpow radix2 1024 <= Rabs (rnd (B2R x / B2R y)) /\ ndiv x y = B754_infinity (xorb (Bsign x) (Bsign y)))).
Proof.
  intros Fx Hy. change (ndiv x y) with (Bdiv mode_NE x y).
  pose proof (Bdiv_correct 53 1024 prec53 emax1024 mode_NE x y Hy) as H.
  fold (rnd (B2R x / B2R y)) in H.
  destruct (Rlt_bool_spec (Rabs (rnd (B2R x / B2R y))) (bpow radix2 1024)) as [L|L].
  - destruct H as (H1 & H2 & H3). rewrite Fx in H2. split; [|left; auto].
    apply H3. destruct (Bdiv _ _ _); auto; discriminate.
  - apply overflow_inf in H. rewrite H. split; [reflexivity|]. right. auto.
Qed.

Lemma finite_nan (x : f64) : is_finite x = true -> nisnan x = false.
Proof. now destruct x. Qed.

Lemma mul_dist (x y : f64) : dist64 x -> dist64 y -> nisnan (nmul x y) = false /\ Bsign (nmul x y) = false.
Proof.
  intros (Fx & Sx) (Fy & Sy). destruct (mul_cases x y Fx Fy) as (S & [(_ & F & _)|(_ & E)]); rewrite Sx, Sy in S; split; auto.
  - now apply finite_nan.
  - now rewrite E.
Qed.

(** the sign of a quotient of non-NaN numbers *)
Lemma div_sign (x y : f64) : nisnan x = false -> nisnan y = false ->
  nisnan (ndiv x y) = true \/ Bsign (ndiv x y) = xorb (Bsign x) (Bsign y).
Proof.
  intros Nx Ny. destruct (nisnan (ndiv x y)) eqn:E; [now left|]. right.
  destruct x as [sx|sx| |sx mx ex Hx], y as [sy|sy| |sy my ey Hy]; try discriminate; try reflexivity.
  apply (div_cases (B754_finite sx mx ex Hx) (B754_finite sy my ey Hy)); [reflexivity|].
  simpl. intros Z. apply eq_0_F2R in Z. destruct sy; discriminate.
Qed.

Lemma neg_le0 (x : f64) : nisnan x = false -> Bsign x = true -> nle x n0 = true.
Proof. destruct x as [[|]|[|]| |[|] m e H]; simpl; intros; try discriminate; reflexivity. Qed.

Lemma minus1_mul (x : f64) : nisnan x = false -> Bsign x = false ->
  nisnan (nmul (nofZ (-1)) x) = false /\ Bsign (nmul (nofZ (-1)) x) = true /\
  is_finite (nmul (nofZ (-1)) x) = is_finite x /\ B2R (nmul (nofZ (-1)) x) = - B2R x.
Proof.
  intros Nx Sx. destruct (nisfin x) eqn:F.
  - assert (F1 : is_finite (nofZ (V:=f64) (-1)) = true) by reflexivity.
    assert (E1 : B2R (nofZ (V:=f64) (-1)) = -1) by (apply (f64_ofZ_exact (-1)); lia).
    assert (S1 : Bsign (nofZ (V:=f64) (-1)) = true) by reflexivity.
    assert (RX : rnd (B2R (nofZ (V:=f64) (-1)) * B2R x) = - B2R x).
    { rewrite E1. replace (-1 * B2R x) with (- B2R x) by ring. apply rnd_gen. apply generic_format_opp, generic_format_B2R. }
    change (is_finite x = true) in F.
    destruct (mul_cases (nofZ (-1)) x F1 F) as (S & [(_ & G & R)|(B & _)]).
    + rewrite S1, Sx in S. rewrite G, F, R, RX. repeat split; auto. now apply finite_nan.
    + exfalso. rewrite RX, Rabs_Ropp in B. pose proof (abs_B2R_lt_emax 53 1024 x). lra.
  - destruct x as [[|]|[|]| |[|] m e H]; try discriminate. repeat split; auto. simpl. lra.
Qed.

Lemma one_minus (e : f64) : nle n0 e = true -> nle e n1 = true ->
  nle n0 (nsub n1 e) = true /\ nle (nsub n1 e) n1 = true.
Proof.
  intros H0 H1.
  assert (F : is_finite e = true).
  { destruct e as [s|[|]| |s m x H]; try discriminate; reflexivity. }
  destruct n0_f64 as (Z0 & F0). destruct n1_f64 as (Z1 & F1).
  apply nle_B2R in H0; auto. apply nle_B2R in H1; auto. rewrite Z0 in H0. rewrite Z1 in H1.
  pose proof (Bminus_correct 53 1024 prec53 emax1024 mode_NE (n1 (V:=f64)) e F1 F) as H.
  rewrite Z1 in H. fold (rnd (1 - B2R e)) in H.
  assert (U : 0 <= 1 - B2R e <= 1) by lra. apply rnd_unit in U.
  rewrite Rlt_bool_true in H.
  2:{ rewrite Rabs_pos_eq by lra. pose proof bpow1024_big. lra. }
  destruct H as (H2 & H3 & _). split; apply nle_B2R; auto; change (nsub n1 e) with (Bminus mode_NE (n1 (V:=f64)) e); lra.
Qed.

(** ** rounding commutes with powers of two away from the ends of the range *)
Lemma rnd_bpow x k : bpow radix2 (-1022) <= Rabs x -> bpow radix2 (-1022) <= Rabs (x * bpow radix2 k) ->
  rnd (x * bpow radix2 k) = rnd x * bpow radix2 k.
Proof.
  intros Hx Hk. unfold rnd. change (SpecFloat.fexp 53 1024) with (FLT_exp (-1074) 53).
  rewrite !round_FLT_FLX by (exact Hx || exact Hk).
  assert (Nz : x <> 0).
  { intros ->. rewrite Rabs_R0 in Hx. pose proof (bpow_gt_0 radix2 (-1022)). lra. }
  unfold round, scaled_mantissa, cexp. rewrite mag_mult_bpow by assumption.
  unfold FLX_exp. set (m := mag radix2 x : Z).
  replace (- (m + k - 53))%Z with (- (m - 53) + - k)%Z by ring. rewrite bpow_plus.
  replace (x * bpow radix2 k * (bpow radix2 (- (m - 53)) * bpow radix2 (- k))) with (x * bpow radix2 (- (m - 53))).
  - unfold F2R. cbn [Fnum Fexp]. replace (m + k - 53)%Z with ((m - 53) + k)%Z by ring. rewrite bpow_plus. ring.
  - rewrite bpow_opp with (e := k). field. pose proof (bpow_gt_0 radix2 k). lra.
Qed.

Lemma rnd_ge_bpow x k : (-1074 <= k)%Z -> bpow radix2 k <= x -> bpow radix2 k <= rnd x.
Proof.
  intros Hk H. rewrite <- (rnd_gen (bpow radix2 k)) at 1; [now apply rnd_le|].
  apply generic_format_bpow. unfold SpecFloat.fexp, SpecFloat.emin. lia.
Qed.
Lemma rnd_le_bpow x k : (-1074 <= k)%Z -> x <= bpow radix2 k -> rnd x <= bpow radix2 k.
Proof.
  intros Hk H. rewrite <- (rnd_gen (bpow radix2 k)); [now apply rnd_le|].
  apply generic_format_bpow. unfold SpecFloat.fexp, SpecFloat.emin. lia.
Qed.

Lemma prod_within (x y a b c d : R) : 0 <= a -> 0 <= c -> a <= x <= b -> c <= y <= d -> a * c <= x * y <= b * d.
Proof. intros. split; apply Rmult_le_compat; lra. Qed.

(** product of two numbers away from the ends *)
Lemma mul_within e (x y : f64) : (0 <= e <= 500)%Z -> dist64 x -> dist64 y -> within (-e) e x -> within (-e) e y ->
  dist64 (nmul x y) /\ within (-2 * e) (2 * e) (nmul x y) /\ B2R (nmul x y) = rnd (B2R x * B2R y).
Proof.
  intros He (Fx & Sx) (Fy & Sy) Wx Wy. unfold within in *.
  pose proof (prod_within _ _ _ _ _ _ (bpow_ge_0 radix2 (-e)) (bpow_ge_0 radix2 (-e)) Wx Wy) as P.
  rewrite <- !bpow_plus in P. replace (-e + -e)%Z with (-2 * e)%Z in P by ring. replace (e + e)%Z with (2 * e)%Z in P by ring.
  assert (P' : bpow radix2 (-2 * e) <= rnd (B2R x * B2R y) <= bpow radix2 (2 * e)).
  { split; [apply rnd_ge_bpow|apply rnd_le_bpow]; try lia; apply P. }
  destruct (mul_cases x y Fx Fy) as (S & [(_ & F & R)|(B & _)]).
  - rewrite Sx, Sy in S. split; [split; auto|]. split; [rewrite R; exact P'|exact R].
  - exfalso. rewrite Rabs_pos_eq in B.
    + assert (bpow radix2 (2 * e) < bpow radix2 1024) by (apply bpow_lt; lia). lra.
    + pose proof (bpow_ge_0 radix2 (-2 * e)). lra.
Qed.

Lemma within_pos lo hi (x : f64) : within lo hi x -> 0 < B2R x.
Proof. intros (H & _). pose proof (bpow_gt_0 radix2 lo). lra. Qed.

(** equal quotients *)
Lemma div_same (x y x' y' : f64) : is_finite x = true -> is_finite x' = true -> B2R y <> 0 -> B2R y' <> 0 ->
  Bsign x = Bsign x' -> Bsign y = Bsign y' -> B2R x / B2R y = B2R x' / B2R y' -> ndiv x y = ndiv x' y'.
Proof.
  intros F F' Hy Hy' Sx Sy E.
  destruct (div_cases x y F Hy) as (S & C), (div_cases x' y' F' Hy') as (S' & C').
  rewrite <- E, <- Sx, <- Sy in *.
  destruct C as [(C1 & C2 & C3)|(C1 & C2)], C' as [(D1 & D2 & D3)|(D1 & D2)]; try lra.
  - apply B2R_Bsign_inj; congruence.
  - congruence.
Qed.

(** tiny and huge squares *)
Lemma mul_tiny (x y : f64) : dist64 x -> dist64 y -> B2R x < bpow radix2 (-538) -> B2R y < bpow radix2 (-538) ->
  nmul x y = B754_zero false.
Proof.
  intros (Fx & Sx) (Fy & Sy) Hx Hy.
  assert (Px : forall z : f64, Bsign z = false -> 0 <= B2R z).
  { intros [s|s| |s m e H]; simpl; intros E; try lra. subst s. apply F2R_ge_0. simpl. lia. }
  assert (P : 0 <= B2R x * B2R y <= bpow radix2 (-1076)).
  { split; [apply Rmult_le_pos; auto|]. change (-1076)%Z with (-538 + -538)%Z. rewrite bpow_plus.
    apply Rmult_le_compat; auto; lra. }
  assert (R0 : rnd (B2R x * B2R y) = 0).
  { destruct (Req_dec (B2R x * B2R y) 0) as [->|Nz]; [apply rnd_0|].
    unfold rnd. change (round_mode mode_NE) with (Znearest (fun x => negb (Z.even x))).
    pose proof (bpow_mag_le radix2 _ Nz) as M1. pose proof (bpow_mag_gt radix2 (B2R x * B2R y)) as M2.
    apply round_N_small with (ex := mag radix2 (B2R x * B2R y)); [split; assumption|].
    assert (M : (mag radix2 (B2R x * B2R y) <= -1075)%Z).
    { apply mag_le_bpow; [assumption|]. rewrite Rabs_pos_eq by apply P.
      eapply Rle_lt_trans; [apply P|]. apply bpow_lt. lia. }
    unfold SpecFloat.fexp, SpecFloat.emin. lia. }
  destruct (mul_cases x y Fx Fy) as (S & [(_ & F & R)|(B & _)]).
  - rewrite Sx, Sy in S. apply B2R_Bsign_inj; auto. now rewrite R, R0.
  - exfalso. rewrite R0, Rabs_R0 in B. pose proof (bpow_gt_0 radix2 1024). lra.
Qed.

Lemma mul_huge (x y : f64) : dist64 x -> dist64 y -> bpow radix2 512 <= B2R x -> bpow radix2 512 <= B2R y ->
  nmul x y = B754_infinity false.
Proof.
  intros (Fx & Sx) (Fy & Sy) Hx Hy. pose proof (bpow_gt_0 radix2 512) as P0.
  assert (P : bpow radix2 1024 <= B2R x * B2R y).
  { replace (bpow radix2 1024) with (bpow radix2 512 * bpow radix2 512) by (rewrite <- bpow_plus; reflexivity). apply Rmult_le_compat; lra. }
  assert (P' : bpow radix2 1024 <= rnd (B2R x * B2R y)) by (apply rnd_ge_bpow; [lia|exact P]).
  destruct (mul_cases x y Fx Fy) as (S & [(L & _ & _)|(_ & E)]).
  - exfalso. pose proof (Rle_abs (rnd (B2R x * B2R y))). lra.
  - now rewrite E, Sx, Sy.
Qed.

(** ** signs survive products, quotients and roots *)
Lemma mul_clear (x y : f64) : sign_clear x -> sign_clear y -> sign_clear (nmul x y).
Proof.
  intros [Nx|Sx]; [left; destruct x; try discriminate; reflexivity|].
  intros [Ny|Sy]; [left; destruct y; try discriminate; now destruct x|].
  destruct (is_finite x && is_finite y) eqn:F.
  - apply andb_true_iff in F as (Fx & Fy). right. destruct (mul_cases x y Fx Fy) as (-> & _). now rewrite Sx, Sy.
  - destruct x as [[|]|[|]| |[|] m e H], y as [[|]|[|]| |[|] m' e' H']; try discriminate;
      (left; reflexivity) || (right; reflexivity).
Qed.
Lemma div_clear (x y : f64) : sign_clear x -> sign_clear y -> sign_clear (ndiv x y).
Proof.
  intros [Nx|Sx]; [left; destruct x; try discriminate; reflexivity|].
  intros [Ny|Sy]; [left; destruct y; try discriminate; now destruct x|].
  destruct (nisnan x) eqn:Nx; [left; destruct x; try discriminate; reflexivity|].
  destruct (nisnan y) eqn:Ny; [left; destruct y; try discriminate; now destruct x|].
  destruct (div_sign x y Nx Ny) as [H|H]; [now left|right]. now rewrite H, Sx, Sy.
Qed.
Lemma sqrt_clear (x : f64) : sign_clear x -> sign_clear (nsqrt x).
Proof.
  intros [Nx|Sx]; [left; destruct x; try discriminate; reflexivity|].
  destruct (nisnan (nsqrt x)) eqn:E; [now left|right].
  change (Bsign (Bsqrt mode_NE x) = false). rewrite (proj2 (proj2 (Bsqrt_correct 53 1024 prec53 emax1024 mode_NE x)) E). exact Sx.
Qed.
Lemma clear_nonneg (x : f64) : sign_clear x -> nisnan x = true \/ nle n0 x = true.
Proof.
  intros [H|H]; [now left|]. destruct x as [[|]|[|]| |[|] m e B]; try discriminate; auto.
Qed.
