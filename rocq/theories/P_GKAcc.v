(** Proofs for C180: the Goodman-Kruskal index in float64 for any number of quadruples. *)
From Coq Require Import String.
From Coq Require Import ZArith Reals Lra List Arith Lia Bool Permutation.
From Flocq Require Import Core BinarySingleNaN Plus_error Relative.
From Verif Require Import Py Num Arr Sort S_Neighbors M_IO M_GK.
From Verif Require Import P_F64 P_LSAcc P_NicdmAcc Properties_NicdmAcc P_GK P_GK2 P_GK3.
Import ListNotations.
Local Open Scope nat_scope.
Local Open Scope R_scope.

Definition near (A K x : R) : Prop := K * (1 - A) <= x <= K * (1 + A).

(** conversion of a count *)
Lemma ofZ_rel c : (Z.of_nat c <= 2 ^ 64)%Z ->
  is_finite (nofZ (Z.of_nat c) : f64) = true /\ exists e, Rabs e <= u53 /\ B2R (nofZ (Z.of_nat c) : f64) = INR c * (1 + e).
Proof.
  intros Hc. change (nofZ (Z.of_nat c) : f64) with (f64_ofZ (Z.of_nat c)). unfold f64_ofZ.
  pose proof (binary_normalize_correct 53 1024 prec53 emax1024 mode_NE (Z.of_nat c) 0 false) as H. cbv zeta in H.
  replace (F2R {| Fnum := Z.of_nat c; Fexp := 0 |}) with (INR c) in H by (rewrite INR_IZR_INZ; unfold F2R; simpl; ring).
  fold (rnd (INR c)) in H. pose proof u53_pos as U.
  assert (E : exists e, Rabs e <= u53 /\ rnd (INR c) = INR c * (1 + e)).
  { destruct c as [|c].
    - exists 0. rewrite Rabs_R0. cbn [INR]. rewrite rnd_0. lra.
    - apply rnd_norm. rewrite Rabs_pos_eq by apply pos_INR. apply Rle_trans with 1; [change 1 with (bpow radix2 0); apply bpow_le; lia|].
      rewrite S_INR. pose proof (pos_INR c). lra. }
  destruct E as (e & He & E).
  assert (B : Rabs (rnd (INR c)) < bpow radix2 1024).
  { rewrite E. apply IZR_le in Hc. rewrite <- INR_IZR_INZ in Hc. pose proof (pos_INR c) as P. apply Rabs_le_inv in He.
    assert (u53 <= 1) by (unfold u53; change 1 with (bpow radix2 0); apply bpow_le; lia).
    rewrite Rabs_pos_eq by nra. apply Rle_lt_trans with (bpow radix2 65); [|apply bpow_lt; lia].
    change (bpow radix2 65) with (2 * IZR (2 ^ 64)). nra. }
  rewrite (Rlt_bool_true _ _ B) in H. destruct H as (V & F & _). split; [exact F|]. exists e. split; [exact He|]. rewrite V. exact E.
Qed.

Definition powers (m : nat) (K x : R) : Prop := K * (1 - u53) ^ (2 * m) <= x <= K * (1 + u53) ^ (2 * m).

Lemma u53_small : u53 <= / 1000.
Proof. apply Rle_trans with (bpow radix2 (-10)); [unfold u53; apply bpow_le; lia|change (bpow radix2 (-10)) with (/ 1024); lra]. Qed.

Lemma pow_lower k : 1 - INR k * u53 <= (1 - u53) ^ k.
Proof.
  pose proof u53_pos. pose proof u53_small. induction k as [|k IH]; [cbn; lra|]. rewrite S_INR. cbn [pow].
  assert (0 <= (1 - u53) ^ k <= 1).
  { split; [apply pow_le; lra|]. apply Rle_trans with (1 ^ k); [apply pow_incr; lra|rewrite pow1; lra]. }
  assert (u53 * (1 - u53) ^ k <= u53) by nra. lra.
Qed.
Lemma pow_upper k : INR k * u53 <= / 2 -> (1 + u53) ^ k <= 1 + 2 * (INR k * u53).
Proof.
  intros Hk. pose proof u53_pos. pose proof (pos_INR k). apply Rle_trans with (1 := pow_1u k). set (x := INR k * u53) in *.
  assert (Px : 0 <= x) by (unfold x; nra).
  pose proof (exp_ineq1_le (- x)) as I. rewrite exp_Ropp in I. pose proof (exp_pos x).
  apply Rmult_le_compat_r with (r := exp x) in I; [|lra]. rewrite Rinv_l in I by lra. nra.
Qed.

Lemma powers_near m K x : (Z.of_nat m <= 2 ^ 40)%Z -> 0 <= K -> powers m K x -> near (4 * (INR m * u53)) K x.
Proof.
  intros Hm HK (A & B). pose proof u53_pos. pose proof (pos_INR m).
  assert (Bm : INR m * u53 <= bpow radix2 (-13)).
  { apply IZR_le in Hm. rewrite <- INR_IZR_INZ in Hm. change (-13)%Z with (40 + -53)%Z. rewrite bpow_plus. fold u53. apply Rmult_le_compat_r; [lra|exact Hm]. }
  assert (Q : INR (2 * m) = 2 * INR m) by (rewrite mult_INR; reflexivity).
  pose proof (pow_lower (2 * m)) as L. pose proof (pow_upper (2 * m)) as P. rewrite Q in L, P.
  assert (bpow radix2 (-13) <= / 8) by (change (bpow radix2 (-13)) with (/ 8192); lra). specialize (P ltac:(lra)). unfold near. split.
  - apply Rle_trans with (2 := A). apply Rmult_le_compat_l; [exact HK|]. nra.
  - apply Rle_trans with (1 := B). apply Rmult_le_compat_l; [exact HK|]. nra.
Qed.

Lemma acc_step64 m K c (x : f64) : (Z.of_nat m <= 2 ^ 40)%Z -> (Z.of_nat (K + c) <= 2 ^ 63)%Z -> is_finite x = true -> powers m (INR K) (B2R x) ->
  is_finite (nadd x (nofZ (Z.of_nat c))) = true /\ powers (S m) (INR (K + c)) (B2R (nadd x (nofZ (Z.of_nat c)) : f64)).
Proof.
  intros Hm Hb F P. destruct (powers_near m (INR K) _ Hm (pos_INR K) P) as (NA & NB). destruct (ofZ_rel c ltac:(lia)) as (Fc & e & He & Ec).
  pose proof u53_pos as U. pose proof u53_small as Us. pose proof (pos_INR K) as PK. pose proof (pos_INR c) as Pc. pose proof (pos_INR m) as Pm.
  assert (Bm : INR m * u53 <= bpow radix2 (-13)).
  { apply IZR_le in Hm. rewrite <- INR_IZR_INZ in Hm. change (-13)%Z with (40 + -53)%Z. rewrite bpow_plus. fold u53. apply Rmult_le_compat_r; [lra|exact Hm]. }
  assert (B13 : bpow radix2 (-13) <= / 8) by (change (bpow radix2 (-13)) with (/ 8192); lra).
  assert (Bs : INR K + INR c <= bpow radix2 63).
  { rewrite <- plus_INR, INR_IZR_INZ. apply IZR_le in Hb. exact Hb. }
  assert (B1000 : 2 * bpow radix2 63 <= bpow radix2 1000).
  { change 2 with (bpow radix2 1). rewrite <- bpow_plus. apply bpow_le. lia. }
  apply Rabs_le_inv in He.
  assert (X0 : 0 <= B2R x <= 2 * INR K) by nra.
  assert (C0 : 0 <= B2R (nofZ (Z.of_nat c) : f64) <= 2 * INR c) by (rewrite Ec; nra).
  destruct (add64 x (nofZ (Z.of_nat c)) F Fc) as (Fa & e' & He' & Ea).
  { rewrite Rabs_pos_eq by lra. lra. } { rewrite Rabs_pos_eq by lra. lra. }
  split; [exact Fa|]. apply Rabs_le_inv in He'. unfold powers in *. rewrite Ea, plus_INR. destruct P as (PA & PB).
  replace (2 * S m)%nat with (S (S (2 * m))) by lia. cbn [pow]. set (p := (1 - u53) ^ (2 * m)) in *. set (q := (1 + u53) ^ (2 * m)) in *.
  assert (Hp : 0 <= p <= 1).
  { split; [apply pow_le; lra|]. unfold p. apply Rle_trans with (1 ^ (2 * m)); [apply pow_incr; lra|rewrite pow1; lra]. }
  assert (Hq : 1 <= q) by (apply pow_R1_Rle; lra).
  set (v := B2R (nofZ (Z.of_nat c) : f64)) in *. set (b := B2R x) in *.
  assert (LV : INR c * (p * (1 - u53)) <= v).
  { rewrite Ec. apply Rmult_le_compat_l; [lra|]. nra. }
  assert (UV : v <= INR c * (q * (1 + u53))).
  { rewrite Ec. apply Rmult_le_compat_l; [lra|]. nra. }
  assert (LB : INR K * (p * (1 - u53)) <= b).
  { apply Rle_trans with (2 := PA). apply Rmult_le_compat_l; [lra|]. nra. }
  assert (UB : b <= INR K * (q * (1 + u53))).
  { apply Rle_trans with (1 := PB). apply Rmult_le_compat_l; [lra|]. nra. }
  assert (S1 : (INR K + INR c) * (p * (1 - u53)) <= b + v) by lra.
  assert (S2 : b + v <= (INR K + INR c) * (q * (1 + u53))) by lra.
  split.
  - replace ((INR K + INR c) * ((1 - u53) * ((1 - u53) * p))) with (((INR K + INR c) * (p * (1 - u53))) * (1 - u53)) by ring.
    apply Rmult_le_compat; try lra. apply Rmult_le_pos; [lra|]. apply Rmult_le_pos; lra.
  - replace ((INR K + INR c) * ((1 + u53) * ((1 + u53) * q))) with (((INR K + INR c) * (q * (1 + u53))) * (1 + u53)) by ring.
    apply Rmult_le_compat; lra.
Qed.

(** the loop over the classes *)
Lemma fold_close (step : f64 * f64 -> Z -> f64 * f64) (f g : Z -> nat) (big : Z -> bool) :
  (forall Q c, step Q c = if big c then (nadd (fst Q) (nofZ (Z.of_nat (f c))), nadd (snd Q) (nofZ (Z.of_nat (g c)))) else Q) ->
  (forall c, big c = false -> f c = 0%nat /\ g c = 0%nat) ->
  forall cls m a b (Q : f64 * f64), (Z.of_nat (m + length cls) <= 2 ^ 40)%Z ->
    (Z.of_nat (a + b + sum_nat (map f cls) + sum_nat (map g cls)) <= 2 ^ 63)%Z ->
    is_finite (fst Q) = true -> is_finite (snd Q) = true -> powers m (INR a) (B2R (fst Q)) -> powers m (INR b) (B2R (snd Q)) ->
    let Q' := fold_left step cls Q in let m' := (m + length cls)%nat in
    is_finite (fst Q') = true /\ is_finite (snd Q') = true /\
    powers m' (INR (a + sum_nat (map f cls))) (B2R (fst Q')) /\ powers m' (INR (b + sum_nat (map g cls))) (B2R (snd Q')).
Proof.
  intros Hs Hz. induction cls as [|c cls IH]; intros m a b Q Hm Hb F1 F2 P1 P2; cbn [map fold_left length].
  - cbn [sum_nat fold_right]. rewrite !Nat.add_0_r. auto.
  - cbn [map length] in Hm, Hb. change (sum_nat (f c :: map f cls)) with (f c + sum_nat (map f cls))%nat in *.
    change (sum_nat (g c :: map g cls)) with (g c + sum_nat (map g cls))%nat in *.
    rewrite !Nat.add_assoc. replace (m + S (length cls))%nat with (S m + length cls)%nat by lia.
    assert (G : is_finite (fst (step Q c)) = true /\ is_finite (snd (step Q c)) = true /\
      powers (S m) (INR (a + f c)) (B2R (fst (step Q c))) /\ powers (S m) (INR (b + g c)) (B2R (snd (step Q c)))).
    { rewrite Hs. destruct (big c) eqn:E; cbn [fst snd].
      - destruct (acc_step64 m a (f c) (fst Q)) as (A1 & A2); try assumption; try lia.
        destruct (acc_step64 m b (g c) (snd Q)) as (B1 & B2); try assumption; try lia. auto.
      - destruct (Hz c E) as (-> & ->). rewrite !Nat.add_0_r.
        assert (W : forall K x, 0 <= K -> powers m K x -> powers (S m) K x).
        { intros K x HK (A & B). pose proof u53_pos. pose proof u53_small. unfold powers. replace (2 * S m)%nat with (S (S (2 * m))) by lia. cbn [pow].
          assert (Hp : 0 <= (1 - u53) ^ (2 * m)) by (apply pow_le; lra).
          assert (Hq : 1 <= (1 + u53) ^ (2 * m)) by (apply pow_R1_Rle; lra).
          set (p := (1 - u53) ^ (2 * m)) in *. set (q := (1 + u53) ^ (2 * m)) in *.
          assert (H1 : (1 - u53) * p <= p) by nra. assert (H2 : (1 - u53) * ((1 - u53) * p) <= (1 - u53) * p) by (apply Rmult_le_compat_l; lra).
          assert (H3 : q <= (1 + u53) * q) by nra. assert (H4 : (1 + u53) * q <= (1 + u53) * ((1 + u53) * q)) by (apply Rmult_le_compat_l; lra).
          split; [apply Rle_trans with (2 := A)|apply Rle_trans with (1 := B)]; apply Rmult_le_compat_l; try exact HK; lra. }
        repeat split; try assumption; apply W; auto using pos_INR. }
    destruct G as (G1 & G2 & G3 & G4). apply IH; try assumption; lia.
Qed.

Lemma rnd_err_abs x : Rabs x <= 1 -> Rabs (rnd x - x) <= u53.
Proof.
  intros H. apply Rabs_le_inv in H. destruct (Rle_or_lt 0 x) as [P|P].
  - apply rnd_err. lra.
  - pose proof (rnd_err (- x) ltac:(lra)) as E. rewrite rnd_opp in E. replace (- rnd x - - x) with (- (rnd x - x)) in E by ring. now rewrite Rabs_Ropp in E.
Qed.
Lemma rnd_abs_le x y : Rabs x <= y -> Rabs (rnd x) <= rnd y.
Proof.
  intros H. apply Rabs_le_inv in H. apply Rabs_le. split; [|now apply rnd_le].
  rewrite <- (rnd_opp y). now apply rnd_le.
Qed.

Lemma sum_rel (x y : f64) : exists e, Rabs e <= u53 /\ rnd (B2R x + B2R y) = (B2R x + B2R y) * (1 + e).
Proof.
  destruct (FLT_plus_error_N_ex radix2 (-1074) 53 (fun z => negb (Z.even z)) (B2R x) (B2R y)) as (e & He & Ee).
  - apply (generic_format_B2R 53 1024).
  - apply (generic_format_B2R 53 1024).
  - exists e. split; [|exact Ee]. assert (U : u_ro radix2 53 = u53).
    { unfold u_ro, u53. change (- (53) + 1)%Z with (-52)%Z. change (-53)%Z with (-1 + -52)%Z. rewrite bpow_plus. reflexivity. }
    rewrite U in He. pose proof u53_pos as Pu. apply Rle_trans with (1 := He). apply Rmult_le_reg_r with (1 + u53); [lra|].
    unfold Rdiv. rewrite Rmult_assoc, Rinv_l by lra. nra.
Qed.

Lemma Rabs_quot x y : 0 < y -> Rabs (x / y) = Rabs x / y.
Proof. intros H. unfold Rdiv. rewrite Rabs_mult, Rabs_inv, (Rabs_pos_eq y) by lra. reflexivity. Qed.

(** (x - y) / (x + y) *)
Lemma quot_close (x y s : f64) (X Y A : R) : is_finite x = true -> is_finite y = true -> is_finite s = true ->
  0 <= B2R x <= bpow radix2 1000 -> 0 <= B2R y <= bpow radix2 1000 -> B2R s = rnd (B2R x + B2R y) ->
  0 <= X -> 0 <= Y -> 0 < X + Y -> 0 <= A <= / 2 -> near A X (B2R x) -> near A Y (B2R y) ->
  let v := ndiv (nsub x y) s : f64 in
  is_finite v = true /\ Rabs (B2R v) <= 1 /\ Rabs (B2R v - (X - Y) / (X + Y)) <= 2 * A + 4 * u53.
Proof.
  intros Fx Fy Fs Bx By Es HX HY HT HA (X1 & X2) (Y1 & Y2) v. pose proof u53_pos as U. pose proof u53_small as Us.
  set (a := B2R x) in *. set (b := B2R y) in *.
  assert (P : (X + Y) * (1 - A) <= a + b) by lra.
  assert (Pab : 0 < a + b) by nra.
  (* the difference *)
  pose proof (Bminus_correct 53 1024 prec53 emax1024 mode_NE x y Fx Fy) as M. fold a b in M. fold (rnd (a - b)) in M.
  destruct (sum_rel x (Bopp y)) as (e1 & He1 & E1). rewrite B2R_Bopp in E1. fold a b in E1. replace (a + - b) with (a - b) in E1 by ring.
  destruct (sum_rel x y) as (e2 & He2 & E2). fold a b in E2.
  assert (Dl : Rabs (rnd (a - b)) <= rnd (a + b)) by (apply rnd_abs_le; apply Rabs_le; lra).
  assert (Sm : Rabs (rnd (a - b)) < bpow radix2 1024).
  { rewrite E1, Rabs_mult. apply Rabs_le_inv in He1. assert (Rabs (a - b) <= bpow radix2 1000) by (apply Rabs_le; lra).
    assert (Rabs (1 + e1) <= 2) by (apply Rabs_le; lra). pose proof (Rabs_pos (a - b)). pose proof (Rabs_pos (1 + e1)).
    apply Rle_lt_trans with (bpow radix2 1000 * bpow radix2 1); [change (bpow radix2 1) with 2; nra|]. rewrite <- bpow_plus. apply bpow_lt. lia. }
  rewrite (Rlt_bool_true _ _ Sm) in M. destruct M as (Vm & Fm & _).
  apply Rabs_le_inv in He1. apply Rabs_le_inv in He2.
  assert (Ps : 0 < B2R s) by (rewrite Es, E2; nra).
  (* the quotient *)
  pose proof (Bdiv_correct 53 1024 prec53 emax1024 mode_NE (Bminus mode_NE x y) s ltac:(lra)) as H. rewrite Vm in H.
  set (q := rnd (a - b) / B2R s) in *. fold (rnd q) in H.
  assert (Hq : Rabs q <= 1).
  { unfold q. rewrite Rabs_quot by lra. apply Rmult_le_reg_r with (B2R s); [exact Ps|].
    unfold Rdiv. rewrite Rmult_assoc, Rinv_l by lra. rewrite Es. lra. }
  assert (Hr : Rabs (rnd q) <= 1) by (rewrite <- rnd_1; now apply rnd_abs_le).
  rewrite Rlt_bool_true in H by (pose proof bpow1024_big; lra).
  destruct H as (V & F & _). rewrite Fm in F. change (Bdiv mode_NE (Bminus mode_NE x y) s) with v in V, F.
  split; [exact F|]. rewrite V. split; [exact Hr|].
  pose proof (rnd_err_abs q Hq) as R1.
  set (r := (a - b) / (a + b)).
  assert (Rr : Rabs r <= 1).
  { unfold r. rewrite Rabs_quot by lra. apply Rmult_le_reg_r with (a + b); [exact Pab|].
    unfold Rdiv. rewrite Rmult_assoc, Rinv_l by lra. rewrite Rmult_1_l, Rmult_1_r. apply Rabs_le. lra. }
  assert (R2 : Rabs (q - r) <= 3 * u53).
  { assert (Eq : q - r = r * ((e1 - e2) / (1 + e2))).
    { unfold q, r. rewrite Es, E1, E2. field. split; lra. }
    rewrite Eq, Rabs_mult. assert (K : Rabs ((e1 - e2) / (1 + e2)) <= 3 * u53).
    { rewrite Rabs_quot by lra. apply Rmult_le_reg_r with (1 + e2); [lra|]. unfold Rdiv. rewrite Rmult_assoc, Rinv_l by lra.
      rewrite Rmult_1_r. apply Rle_trans with (2 * u53); [apply Rabs_le; lra|nra]. }
    pose proof (Rabs_pos r). pose proof (Rabs_pos ((e1 - e2) / (1 + e2))). nra. }
  assert (R3 : Rabs (r - (X - Y) / (X + Y)) <= 2 * A).
  { assert (Eq : r - (X - Y) / (X + Y) = 2 * (Y * a - X * b) / ((X + Y) * (a + b))) by (unfold r; field; lra).
    assert (PT : 0 < (X + Y) * (a + b)) by (apply Rmult_lt_0_compat; lra). rewrite Eq, Rabs_quot by exact PT.
    apply Rmult_le_reg_r with ((X + Y) * (a + b)); [exact PT|]. unfold Rdiv. rewrite Rmult_assoc, Rinv_l by lra. rewrite Rmult_1_r.
    assert (N1 : Y * a <= Y * (X * (1 + A))) by (apply Rmult_le_compat_l; assumption).
    assert (N2 : Y * (X * (1 - A)) <= Y * a) by (apply Rmult_le_compat_l; assumption).
    assert (N3 : X * b <= X * (Y * (1 + A))) by (apply Rmult_le_compat_l; assumption).
    assert (N4 : X * (Y * (1 - A)) <= X * b) by (apply Rmult_le_compat_l; assumption).
    assert (Q1 : Y * a - X * b <= 2 * (X * Y) * A) by lra.
    assert (Q2 : - (2 * (X * Y) * A) <= Y * a - X * b) by lra.
    assert (Q3 : 4 * (X * Y) <= (X + Y) * (X + Y)) by (pose proof (Rle_0_sqr (X - Y)) as Sq; unfold Rsqr in Sq; lra).
    assert (Q4 : (X + Y) * (X + Y) <= 2 * ((X + Y) * (a + b))).
    { assert (X + Y <= 2 * (a + b)) by nra. assert ((X + Y) * (X + Y) <= (X + Y) * (2 * (a + b))) by (apply Rmult_le_compat_l; lra). lra. }
    assert (Q6 : 0 <= A * ((X + Y) * (a + b))) by (apply Rmult_le_pos; lra).
    assert (Q7 : 4 * (X * Y) * A <= (X + Y) * (X + Y) * A) by (apply Rmult_le_compat_r; lra).
    assert (Q5 : 4 * (X * Y) * A <= 2 * ((X + Y) * (a + b)) * A) by (apply Rmult_le_compat_r; lra).
    apply Rabs_le. split; lra. }
  apply Rabs_le_inv in R1. apply Rabs_le_inv in R2. apply Rabs_le_inv in R3. apply Rabs_le. lra.
Qed.
