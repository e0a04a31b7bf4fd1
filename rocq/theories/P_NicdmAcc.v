(** Rounding errors of NICDM: errors are measured on a logarithmic scale, where
    they add up. *)
From Coq Require Import ZArith Reals Lra Lia List Bool.
From Flocq Require Import Core BinarySingleNaN Relative.
From Verif Require Import Num P_F64 S_LSFloat P_LSFloat P_LSAcc S_NicdmAcc.
Import ListNotations.
Local Open Scope R_scope.

(** [x] and [y] differ by a factor between exp(-e) and exp(e) *)
Definition lclose (e x y : R) : Prop := 0 < y /\ y * exp (- e) <= x <= y * exp e.

Lemma lclose_pos e x y : lclose e x y -> 0 < x.
Proof. intros (P & A & _). pose proof (exp_pos (- e)). apply Rlt_le_trans with (2 := A). now apply Rmult_lt_0_compat. Qed.

Lemma exp_le x y : x <= y -> exp x <= exp y.
Proof. intros [H| ->]; [left; now apply exp_increasing|lra]. Qed.

Lemma lclose_ln e x y : 0 < x -> 0 < y -> Rabs (ln x - ln y) <= e -> lclose e x y.
Proof.
  intros Px Py H. apply Rabs_le_inv in H. split; [exact Py|].
  assert (E : forall t, y * exp t = exp (ln y + t)) by (intros t; now rewrite exp_plus, exp_ln).
  rewrite !E. rewrite <- (exp_ln x Px). split; apply exp_le; lra.
Qed.

Lemma lclose_ln_inv e x y : lclose e x y -> Rabs (ln x - ln y) <= e.
Proof.
  intros H. pose proof (lclose_pos _ _ _ H) as Px. destruct H as (Py & A & B).
  assert (L : forall a b, 0 < a -> a <= b -> ln a <= ln b).
  { intros a b Ha [Hab| ->]; [left; now apply ln_increasing|lra]. }
  pose proof (exp_pos e). pose proof (exp_pos (- e)).
  apply L in A; [|now apply Rmult_lt_0_compat]. apply L in B; [|exact Px].
  rewrite ln_mult, ln_exp in A, B by assumption. apply Rabs_le. lra.
Qed.

Lemma lclose_iff e x y : lclose e x y <-> 0 < x /\ 0 < y /\ Rabs (ln x - ln y) <= e.
Proof.
  split.
  - intros H. split; [eapply lclose_pos; eauto|]. split; [apply H|now apply lclose_ln_inv].
  - intros (A & B & C). now apply lclose_ln.
Qed.

Lemma lclose_mul a b x y x' y' : lclose a x y -> lclose b x' y' -> lclose (a + b) (x * x') (y * y').
Proof.
  rewrite !lclose_iff. intros (P1 & P2 & P3) (Q1 & Q2 & Q3). repeat split; try (apply Rmult_lt_0_compat; assumption).
  rewrite !ln_mult by assumption. apply Rabs_le_inv in P3, Q3. apply Rabs_le. lra.
Qed.
Lemma lclose_div a b x y x' y' : lclose a x y -> lclose b x' y' -> lclose (a + b) (x / x') (y / y').
Proof.
  rewrite !lclose_iff. intros (P1 & P2 & P3) (Q1 & Q2 & Q3). repeat split; try (apply Rdiv_lt_0_compat; assumption).
  unfold Rdiv. rewrite !ln_mult, !ln_Rinv by (try apply Rinv_0_lt_compat; assumption). apply Rabs_le_inv in P3, Q3. apply Rabs_le. lra.
Qed.
Lemma ln_sqrt x : 0 < x -> ln (sqrt x) = ln x / 2.
Proof.
  intros H. pose proof (sqrt_lt_R0 x H) as P. rewrite <- (sqrt_sqrt x) at 2 by lra. rewrite ln_mult by assumption. lra.
Qed.
Lemma lclose_sqrt a x y : lclose a x y -> lclose (a / 2) (sqrt x) (sqrt y).
Proof.
  rewrite !lclose_iff. intros (P1 & P2 & P3). repeat split; try (apply sqrt_lt_R0; assumption).
  rewrite !ln_sqrt by assumption. apply Rabs_le_inv in P3. apply Rabs_le. lra.
Qed.
Lemma lclose_trans a b x y z : lclose a x y -> lclose b y z -> lclose (a + b) x z.
Proof. rewrite !lclose_iff. intros (P1 & P2 & P3) (Q1 & Q2 & Q3). repeat split; try assumption. apply Rabs_le_inv in P3, Q3. apply Rabs_le. lra. Qed.
Lemma lclose_weak a b x y : a <= b -> lclose a x y -> lclose b x y.
Proof. rewrite !lclose_iff. intros H (P1 & P2 & P3). repeat split; try assumption. lra. Qed.
Lemma lclose_refl x : 0 < x -> lclose 0 x x.
Proof. intros H. apply lclose_iff. repeat split; try assumption. unfold Rminus. rewrite Rplus_opp_r, Rabs_R0. lra. Qed.
Lemma lclose_exp e x y : Rabs (x - y) <= e -> lclose e (exp x) (exp y).
Proof. intros H. apply lclose_iff. repeat split; try apply exp_pos. now rewrite !ln_exp. Qed.

(** a relative error e at most 1/2 is a logarithmic error of at most 2 e *)
Lemma lclose_rel e x y : 0 < y -> 0 <= e <= / 2 -> Rabs (x - y) <= e * y -> lclose (2 * e) x y.
Proof.
  intros Py He H. apply Rabs_le_inv in H. split; [exact Py|]. split.
  - apply Rle_trans with (y * (1 - e)); [|lra]. apply Rmult_le_compat_l; [lra|].
    rewrite exp_Ropp. pose proof (exp_ineq1_le (2 * e)) as I.
    assert (Q : 1 <= (1 - e) * (1 + 2 * e)) by nra.
    apply Rmult_le_reg_r with (exp (2 * e)); [apply exp_pos|]. rewrite Rinv_l by (apply Rgt_not_eq, exp_pos).
    apply Rle_trans with (1 := Q). apply Rmult_le_compat_l; lra.
  - apply Rle_trans with (y * (1 + e)); [lra|]. apply Rmult_le_compat_l; [lra|]. pose proof (exp_ineq1_le (2 * e)). lra.
Qed.

(** and back *)
Lemma lclose_abs e x y : lclose e x y -> 0 <= e <= / 100 -> Rabs (x - y) <= 1.02 * e * y.
Proof.
  intros (Py & A & B) He.
  assert (U : exp e <= 1 + 1.02 * e).
  { pose proof (exp_ineq1_le (- e)) as I. rewrite exp_Ropp in I. pose proof (exp_pos e) as P.
    apply Rmult_le_compat_r with (r := exp e) in I; [|lra]. rewrite Rinv_l in I by lra.
    assert (Q : 1 <= (1 + 1.02 * e) * (1 - e)) by nra. nra. }
  assert (L : 1 - e <= exp (- e)) by (pose proof (exp_ineq1_le (- e)); lra).
  apply Rabs_le. split; nra.
Qed.

(** rounding in the normal range *)
Lemma lclose_rnd x : bpow radix2 (-1022) <= x -> lclose (2 * u53) (rnd x) x.
Proof.
  intros H. pose proof (bpow_gt_0 radix2 (-1022)) as P. pose proof u53_pos as U.
  destruct (rnd_norm x) as (e & He & E); [rewrite Rabs_pos_eq; lra|].
  apply lclose_rel; [lra|lra|]. rewrite E. replace (x * (1 + e) - x) with (e * x) by ring. rewrite Rabs_mult, (Rabs_pos_eq x) by lra.
  apply Rmult_le_compat_r; lra.
Qed.

(** the range of a number close to one in a range *)
Lemma exp_small e : 0 <= e <= / 2 -> exp e <= 2 /\ / 2 <= exp (- e).
Proof.
  intros H. pose proof (exp_ineq1_le (- e)) as I. pose proof (exp_pos e) as P. rewrite exp_Ropp in *.
  apply Rmult_le_compat_r with (r := exp e) in I; [|lra]. rewrite Rinv_l in I by lra.
  assert (exp e <= 2) by nra. split; [assumption|]. apply Rinv_le; lra.
Qed.
Lemma lclose_range e x y lo hi : lclose e x y -> bpow radix2 lo <= y <= bpow radix2 hi -> 0 <= e <= / 2 ->
  bpow radix2 (lo - 1) <= x <= bpow radix2 (hi + 1).
Proof.
  intros (Py & A & B) H He. destruct (exp_small e He) as (E1 & E2). unfold Zminus. rewrite !bpow_plus.
  change (bpow radix2 (-(1))) with (/ 2). change (bpow radix2 1) with 2. split; nra.
Qed.

(** ** arithmetic operations away from the ends of the range *)
Lemma under_max x : 0 <= x -> x <= bpow radix2 1023 -> Rabs (rnd x) < bpow radix2 1024.
Proof.
  intros H0 H. rewrite Rabs_pos_eq by (rewrite <- rnd_0; now apply rnd_le).
  apply Rle_lt_trans with (bpow radix2 1023); [apply rnd_le_bpow; [lia|exact H]|apply bpow_lt; lia].
Qed.

Lemma mul64 (x y : f64) : is_finite x = true -> is_finite y = true ->
  bpow radix2 (-1022) <= B2R x * B2R y <= bpow radix2 1023 ->
  is_finite (nmul x y) = true /\ lclose (2 * u53) (B2R (nmul x y)) (B2R x * B2R y).
Proof.
  intros Fx Fy H. pose proof (bpow_gt_0 radix2 (-1022)) as P.
  destruct (mul_cases x y Fx Fy) as (_ & [(_ & F & R)|(B & _)]).
  - split; [exact F|]. rewrite R. now apply lclose_rnd.
  - exfalso. apply Rle_not_lt in B. apply B, under_max; lra.
Qed.

Lemma div64 (x y : f64) : is_finite x = true -> B2R y <> 0 ->
  bpow radix2 (-1022) <= B2R x / B2R y <= bpow radix2 1023 ->
  is_finite (ndiv x y) = true /\ lclose (2 * u53) (B2R (ndiv x y)) (B2R x / B2R y).
Proof.
  intros Fx Hy H. pose proof (bpow_gt_0 radix2 (-1022)) as P.
  destruct (div_cases x y Fx Hy) as (_ & [(_ & F & R)|(B & _)]).
  - split; [exact F|]. rewrite R. now apply lclose_rnd.
  - exfalso. apply Rle_not_lt in B. apply B, under_max; lra.
Qed.

Lemma sqrt64 (x : f64) : is_finite x = true -> 0 < B2R x -> bpow radix2 (-1022) <= sqrt (B2R x) ->
  is_finite (nsqrt x) = true /\ lclose (2 * u53) (B2R (nsqrt x)) (sqrt (B2R x)).
Proof.
  intros F P H. change (nsqrt x) with (Bsqrt mode_NE x).
  pose proof (Bsqrt_correct 53 1024 prec53 emax1024 mode_NE x) as (V & Fs & _). fold (rnd (sqrt (B2R x))) in V. split.
  - rewrite Fs. destruct x as [s|s| |s m e K]; try discriminate F; [reflexivity|]. destruct s; [|reflexivity]. exfalso.
    cbn in P. pose proof (F2R_le_0 radix2 (Float radix2 (Zneg m) e) ltac:(cbn; lia)). lra.
  - rewrite V. now apply lclose_rnd.
Qed.

(** the number of elements as a float *)
Lemma nofnat64 k : (Z.of_nat k <= 2 ^ 53)%Z -> is_finite (nofnat (V:=f64) k) = true /\ B2R (nofnat (V:=f64) k) = INR k.
Proof.
  intros H. destruct (f64_ofZ_exact (Z.of_nat k)) as (E & F); [lia|]. unfold nofnat. cbn [nofZ Num_f64]. split; [exact F|]. rewrite E. now rewrite <- INR_IZR_INZ.
Qed.

(** sums *)
Lemma total_le {A} (f g : A -> R) l : (forall a, In a l -> f a <= g a) -> total (map f l) <= total (map g l).
Proof.
  induction l as [|a l IH]; intros H; cbn; [lra|]. apply Rplus_le_compat; [apply H; now left|]. apply IH. intros b Hb. apply H. now right.
Qed.
Lemma total_const {A} c (l : list A) : total (map (fun _ => c) l) = INR (length l) * c.
Proof. induction l as [|a l IH]; [cbn; ring|]. cbn [map total fold_right length]. fold (total (map (fun _ => c) l)). rewrite IH, S_INR. ring. Qed.
Lemma total_abs {A} (f g : A -> R) l : Rabs (total (map f l) - total (map g l)) <= total (map (fun a => Rabs (f a - g a)) l).
Proof.
  induction l as [|a l IH]; cbn; [rewrite Rminus_0_r, Rabs_R0; lra|].
  fold (total (map f l)) (total (map g l)) (total (map (fun a => Rabs (f a - g a)) l)).
  replace (f a + total (map f l) - (g a + total (map g l))) with ((f a - g a) + (total (map f l) - total (map g l))) by ring.
  eapply Rle_trans; [apply Rabs_triang|]. lra.
Qed.
Lemma total_bounds {A} (f : A -> R) lo hi l : (forall a, In a l -> lo <= f a <= hi) ->
  INR (length l) * lo <= total (map f l) <= INR (length l) * hi.
Proof.
  intros H. rewrite <- !(total_const _ l). split; apply total_le; intros a Ha; now apply H.
Qed.

Lemma div_bounds n t lo hi : 0 < n -> n * lo <= t <= n * hi -> lo <= t / n <= hi.
Proof.
  intros P (A & B). assert (E : t / n * n = t) by (field; lra).
  split; (apply Rmult_le_reg_r with n; [exact P|]); rewrite E, Rmult_comm; assumption.
Qed.

(** np.mean of positive numbers *)
Section Mean.
  Variables (eps : R) (n : nat) (vsum : list f64 -> f64).
  Hypothesis He : u53 <= eps <= bpow radix2 (-20).
  Hypothesis Hs : sum_close eps n vsum.
  Hypothesis Hn : (Z.of_nat n <= 2 ^ 53)%Z.

  Lemma eps_small : 0 < u53 /\ u53 <= eps /\ eps <= / 1000000.
  Proof.
    split; [apply u53_pos|]. split; [apply He|]. apply Rle_trans with (1 := proj2 He). cbn. lra.
  Qed.

  Lemma mean64 l : l <> [] -> (length l <= n)%nat ->
    (forall x, In x l -> nisfin x = true /\ within (-300) 300 x) ->
    let m := total (map B2R l) / INR (length l) in
    bpow radix2 (-300) <= m <= bpow radix2 300 /\
    nisfin (ndiv (vsum l) (nofnat (length l))) = true /\
    lclose (4 * eps) (B2R (ndiv (vsum l) (nofnat (length l)))) m.
  Proof.
    intros Hl HL Hx m. destruct eps_small as (U0 & U1 & U2).
    assert (Pl : 0 < INR (length l)) by (apply (lt_INR 0); destruct l; [contradiction|cbn; lia]).
    destruct (total_bounds B2R (bpow radix2 (-300)) (bpow radix2 300) l (fun x H => proj2 (Hx x H))) as (T1 & T2).
    pose proof (bpow_gt_0 radix2 (-300)) as P3.
    assert (Pt : 0 < total (map B2R l)) by (apply Rlt_le_trans with (2 := T1); now apply Rmult_lt_0_compat).
    assert (Bm : bpow radix2 (-300) <= m <= bpow radix2 300).
    { assert (Em : m * INR (length l) = total (map B2R l)) by (unfold m; field; lra).
      split; (apply Rmult_le_reg_r with (INR (length l)); [exact Pl|]); rewrite Em, Rmult_comm; assumption. }
    split; [exact Bm|].
    destruct (Hs l HL) as (Fs & Es).
    { intros x Hx'. destruct (Hx x Hx') as (F & W). split; [exact F|]. rewrite Rabs_pos_eq; [apply W|]. pose proof (within_pos _ _ _ W). lra. }
    assert (Ea : total (map (fun x => Rabs (B2R x)) l) = total (map B2R l)).
    { f_equal. apply map_ext_in. intros x Hx'. apply Rabs_pos_eq. pose proof (within_pos _ _ _ (proj2 (Hx x Hx'))). lra. }
    rewrite Ea in Es. destruct (nofnat64 (length l)) as (Fn & En); [lia|].
    assert (C1 : lclose (2 * eps) (B2R (vsum l)) (total (map B2R l))) by (apply lclose_rel; lra).
    assert (C2 : lclose (2 * eps) (B2R (vsum l) / B2R (nofnat (V:=f64) (length l))) m).
    { replace (2 * eps) with (2 * eps + 0) by ring. unfold m. rewrite En. apply lclose_div; [exact C1|now apply lclose_refl]. }
    assert (R2 := lclose_range _ _ _ _ _ C2 Bm ltac:(lra)).
    destruct (div64 (vsum l) (nofnat (length l)) Fs) as (Fd & Cd).
    - rewrite En. lra.
    - split; [apply Rle_trans with (2 := proj1 R2)|apply Rle_trans with (1 := proj2 R2)]; apply bpow_le; lia.
    - split; [exact Fd|]. apply lclose_weak with (2 * u53 + 2 * eps); [lra|]. eapply lclose_trans; eauto.
  Qed.

  Variables (vln vexp : f64 -> f64).
  Hypothesis Hln : ln_close eps vln.
  Hypothesis Hexp : exp_accurate eps vexp.

  Lemma ln2_le : ln 2 <= 3 / 4.
  Proof.
    rewrite <- (ln_exp (3 / 4)). destruct (Rle_lt_or_eq_dec 2 (exp (3 / 4))) as [H| ->]; [|left; apply ln_increasing; lra|lra].
    replace (3 / 4) with (3 / 32 + 3 / 32 + (3 / 32 + 3 / 32) + (3 / 32 + 3 / 32 + (3 / 32 + 3 / 32))) by field. rewrite !exp_plus.
    pose proof (exp_ineq1_le (3 / 32)) as I. set (e := exp (3 / 32)) in *.
    assert (I2 : 1.196 <= e * e) by nra. assert (I4 : 1.43 <= e * e * (e * e)) by nra. nra.
  Qed.
  Lemma ln_bpow z : ln (bpow radix2 z) = IZR z * ln 2.
  Proof. rewrite bpow_powerRZ. change (IZR radix2) with 2. rewrite powerRZ_Rpower by lra. unfold Rpower. now rewrite ln_exp. Qed.
  Lemma ln_range x : bpow radix2 (-300) <= x <= bpow radix2 300 -> Rabs (ln x) <= 225.
  Proof.
    intros H. pose proof (bpow_gt_0 radix2 (-300)) as P. pose proof ln2_le as L.
    assert (L0 : 0 <= ln 2) by (rewrite <- ln_1; left; apply ln_increasing; lra).
    assert (M : forall a b, 0 < a -> a <= b -> ln a <= ln b).
    { intros a b Ha [Hab| ->]; [left; now apply ln_increasing|lra]. }
    pose proof (M _ _ P (proj1 H)) as A. pose proof (M x _ ltac:(lra) (proj2 H)) as B. rewrite !ln_bpow in *.
    apply Rabs_le. lra.
  Qed.

  (** the geometric mean of the radii *)
  Lemma geomean64 (rs : list f64) (R : nat -> R) : rs <> [] -> length rs = n ->
    (forall i, (i < n)%nat -> nisfin (nth i rs nnan) = true /\ lclose (4 * eps) (B2R (nth i rs nnan)) (R i) /\
      bpow radix2 (-300) <= R i <= bpow radix2 300) ->
    let g := exp (total (map (fun i => ln (R i)) (seq 0 n)) / INR n) in
    let x := vexp (ndiv (vsum (map vln rs)) (nofnat (length rs))) in
    bpow radix2 (-300) <= g <= bpow radix2 300 /\ nisfin x = true /\ lclose (686 * eps) (B2R x) g.
  Proof.
    intros Hne HL H g x. destruct eps_small as (U0 & U1 & U2).
    assert (Pn : 0 < INR n) by (apply (lt_INR 0); rewrite <- HL; destruct rs; [contradiction|cbn; lia]).
    assert (El : map vln rs = map (fun i => vln (nth i rs nnan)) (seq 0 n)).
    { rewrite <- HL. clear. rewrite <- (map_map (fun i => nth i rs nnan) vln). f_equal. symmetry.
      apply (nth_ext _ _ nnan nnan); [now rewrite map_length, seq_length|]. intros i Hi. rewrite map_length, seq_length in Hi.
      rewrite (nth_indep _ _ (nth 0 rs nnan)) by (rewrite map_length, seq_length; exact Hi). rewrite (map_nth (fun i => nth i rs nnan)). now rewrite seq_nth. }
    assert (A : forall i, In i (seq 0 n) -> nisfin (vln (nth i rs nnan)) = true /\
      Rabs (B2R (vln (nth i rs nnan)) - ln (R i)) <= 231 * eps /\ Rabs (ln (R i)) <= 225).
    { intros i Hi. apply in_seq in Hi. destruct (H i ltac:(lia)) as (F & C & B).
      pose proof (lclose_pos _ _ _ C) as P. pose proof (lclose_ln_inv _ _ _ C) as E. destruct (Hln _ F P) as (Fl & Al).
      pose proof (ln_range _ B) as B'. split; [exact Fl|]. split; [|exact B'].
      set (l := B2R (vln (nth i rs nnan))) in *. set (t := ln (B2R (nth i rs nnan))) in *.
      assert (Bt : Rabs t <= 225.1) by (apply Rabs_le_inv in E, B'; apply Rabs_le; lra).
      replace (l - ln (R i)) with ((l - t) + (t - ln (R i))) by ring. eapply Rle_trans; [apply Rabs_triang|]. nra. }
    assert (G0 : Rabs (total (map (fun i => ln (R i)) (seq 0 n)) / INR n) <= 225).
    { destruct (total_bounds (fun i => ln (R i)) (-225) 225 (seq 0 n)) as (T1 & T2).
      { intros i Hi. destruct (A i Hi) as (_ & _ & B). apply Rabs_le_inv in B. lra. }
      rewrite seq_length in *. apply Rabs_le. now apply div_bounds. }
    assert (Bg : bpow radix2 (-300) <= g <= bpow radix2 300).
    { destruct (total_bounds (fun i => ln (R i)) (-300 * ln 2) (300 * ln 2) (seq 0 n)) as (T1 & T2).
      { intros i Hi. apply in_seq in Hi. destruct (H i ltac:(lia)) as (_ & _ & B). pose proof (bpow_gt_0 radix2 (-300)) as P.
        assert (M : forall a b, 0 < a -> a <= b -> ln a <= ln b).
        { intros a b Ha [Hab| ->]; [left; now apply ln_increasing|lra]. }
        pose proof (M _ _ P (proj1 B)) as A1. pose proof (M (R i) _ ltac:(lra) (proj2 B)) as A2. rewrite !ln_bpow in *. split; assumption. }
      rewrite seq_length in *. unfold g. rewrite <- (exp_ln (bpow radix2 (-300))), <- (exp_ln (bpow radix2 300)) by apply bpow_gt_0. rewrite !ln_bpow.
      destruct (div_bounds _ _ _ _ Pn (conj T1 T2)). split; now apply exp_le. }
    split; [exact Bg|].
    set (ls := map vln rs) in *.
    assert (Ll : length ls = n) by (unfold ls; now rewrite map_length).
    assert (LB : forall z, In z ls -> nisfin z = true /\ Rabs (B2R z) <= 226).
    { intros z Hz. rewrite El in Hz. apply in_map_iff in Hz as (i & <- & Hi). destruct (A i Hi) as (F & E & B). split; [exact F|].
      apply Rabs_le_inv in E, B. apply Rabs_le. nra. }
    destruct (Hs ls) as (Fs & Es); [exact (Nat.eq_le_incl _ _ Ll)| |].
    { intros z Hz. destruct (LB z Hz) as (F & B). split; [exact F|]. apply Rle_trans with (1 := B). apply Rle_trans with (bpow radix2 8); [cbn; lra|apply bpow_le; lia]. }
    assert (T3 : total (map (fun z => Rabs (B2R z)) ls) <= INR n * 226).
    { rewrite <- Ll. apply (total_bounds (fun z => Rabs (B2R z)) 0 226 ls). intros z Hz. split; [apply Rabs_pos|now apply LB]. }
    assert (T4 : Rabs (total (map B2R ls) - total (map (fun i => ln (R i)) (seq 0 n))) <= INR n * (231 * eps)).
    { rewrite El, map_map. eapply Rle_trans; [apply total_abs|].
      pose proof (total_bounds (fun i => Rabs (B2R (vln (nth i rs nnan)) - ln (R i))) 0 (231 * eps) (seq 0 n)) as T. rewrite seq_length in T.
      apply T. intros i Hi. split; [apply Rabs_pos|now apply A]. }
    assert (T5 : Rabs (B2R (vsum ls) - total (map (fun i => ln (R i)) (seq 0 n))) <= INR n * (457 * eps)).
    { replace (B2R (vsum ls) - total (map (fun i => ln (R i)) (seq 0 n))) with ((B2R (vsum ls) - total (map B2R ls)) + (total (map B2R ls) - total (map (fun i => ln (R i)) (seq 0 n)))) by ring.
      eapply Rle_trans; [apply Rabs_triang|]. assert (eps * total (map (fun z => Rabs (B2R z)) ls) <= eps * (INR n * 226)) by (apply Rmult_le_compat_l; lra). lra. }
    destruct (nofnat64 (length rs)) as (Fn & En); [lia|]. rewrite HL in En.
    set (q := B2R (vsum ls) / INR n). set (a := total (map (fun i => ln (R i)) (seq 0 n)) / INR n) in *.
    assert (T6 : Rabs (q - a) <= 457 * eps).
    { unfold q, a. replace (B2R (vsum ls) / INR n - total (map (fun i => ln (R i)) (seq 0 n)) / INR n) with ((B2R (vsum ls) - total (map (fun i => ln (R i)) (seq 0 n))) * / INR n) by (field; lra).
      rewrite Rabs_mult, (Rabs_pos_eq (/ INR n)) by (left; now apply Rinv_0_lt_compat).
      apply Rmult_le_reg_r with (INR n); [exact Pn|]. rewrite Rmult_assoc, Rinv_l by lra. lra. }
    assert (Bq : Rabs q <= 225.1) by (apply Rabs_le_inv in T6, G0; apply Rabs_le; lra).
    destruct (div_cases (vsum ls) (nofnat (length rs)) Fs) as (_ & C); [rewrite HL, En; lra|].
    rewrite HL in C at 1 2 3 4 5. rewrite En in C. fold q in C.
    destruct (rnd_any q) as (e & t & Ee & Et & Rq).
    assert (T7 : Rabs (rnd q - a) <= 686 * eps - 2 * eps /\ Rabs (rnd q) <= 226).
    { rewrite Rq. apply Rabs_le_inv in T6, G0, Bq, Ee, Et.
      assert (Q : Rabs (q * e) <= 225.1 * u53).
      { rewrite Rabs_mult. apply Rmult_le_compat; try apply Rabs_pos; apply Rabs_le; lra. }
      apply Rabs_le_inv in Q. split; apply Rabs_le; lra. }
    assert (BB : 226 < bpow radix2 1024) by (apply Rlt_trans with (bpow radix2 8); [cbn; lra|apply bpow_lt; lia]).
    assert (Ex0 : x = vexp (ndiv (vsum ls) (nofnat n))) by (unfold x; rewrite HL; reflexivity). rewrite Ex0.
    destruct C as [(_ & Fd & Vd)|(OV & _)]; [|exfalso; lra].
    destruct (Hexp (ndiv (vsum ls) (nofnat n)) Fd) as (Fx & Ex); [rewrite Vd; lra|]. split; [exact Fx|].
    apply lclose_weak with (2 * eps + (686 * eps - 2 * eps)); [lra|].
    eapply lclose_trans; [apply lclose_rel; [apply exp_pos| |exact Ex]; lra|]. rewrite Vd. unfold g. fold a. apply lclose_exp. apply T7.
  Qed.

  (** one secondary distance *)
  Lemma nicdm_val64 (x d ri rj : f64) (g Ri Rj : R) :
    nisfin x = true -> nisfin d = true -> nisfin ri = true -> nisfin rj = true ->
    within (-300) 300 d -> lclose (686 * eps) (B2R x) g -> lclose (4 * eps) (B2R ri) Ri -> lclose (4 * eps) (B2R rj) Rj ->
    bpow radix2 (-300) <= g <= bpow radix2 300 -> bpow radix2 (-300) <= Ri <= bpow radix2 300 -> bpow radix2 (-300) <= Rj <= bpow radix2 300 ->
    let v := ndiv (nmul x d) (nsqrt (nmul ri rj)) in
    let f := g * B2R d / sqrt (Ri * Rj) in
    nisfin v = true /\ 0 < f /\ Rabs (B2R v - f) <= 750 * eps * f.
  Proof.
    intros Fx Fd Fi Fj Wd Cg Ci Cj Bg Bi Bj v f. destruct eps_small as (U0 & U1 & U2).
    pose proof (within_pos _ _ _ Wd) as Pd.
    assert (BP : forall a b, bpow radix2 a * bpow radix2 b = bpow radix2 (a + b)) by (intros; symmetry; apply bpow_plus).
    assert (PW : forall lo hi lo' hi' x y, bpow radix2 lo <= x <= bpow radix2 hi -> bpow radix2 lo' <= y <= bpow radix2 hi' -> bpow radix2 (lo + lo') <= x * y <= bpow radix2 (hi + hi')).
    { intros lo hi lo' hi' a b Ha Hb. rewrite <- !BP. apply prod_within; try assumption; apply bpow_ge_0. }
    assert (LE : forall lo hi lo' hi' x, (lo' <= lo)%Z -> (hi <= hi')%Z -> bpow radix2 lo <= x <= bpow radix2 hi -> bpow radix2 lo' <= x <= bpow radix2 hi').
    { intros lo hi lo' hi' a H1 H2 (A & B). split; [apply Rle_trans with (2 := A)|apply Rle_trans with (1 := B)]; now apply bpow_le. }
    assert (C1 : lclose (686 * eps) (B2R x * B2R d) (g * B2R d)).
    { replace (686 * eps) with (686 * eps + 0) by ring. apply lclose_mul; [exact Cg|now apply lclose_refl]. }
    assert (B1 := PW _ _ _ _ _ _ Bg Wd).
    assert (B1' := lclose_range _ _ _ _ _ C1 B1 ltac:(lra)).
    destruct (mul64 x d Fx Fd) as (F1 & M1); [revert B1'; apply LE; lia|].
    assert (C1' : lclose (688 * eps) (B2R (nmul x d)) (g * B2R d)).
    { apply lclose_weak with (2 * u53 + 686 * eps); [lra|]. eapply lclose_trans; eauto. }
    assert (C2 : lclose (8 * eps) (B2R ri * B2R rj) (Ri * Rj)).
    { replace (8 * eps) with (4 * eps + 4 * eps) by ring. now apply lclose_mul. }
    assert (B2 := PW _ _ _ _ _ _ Bi Bj).
    assert (B2' := lclose_range _ _ _ _ _ C2 B2 ltac:(lra)).
    destruct (mul64 ri rj Fi Fj) as (F2 & M2); [revert B2'; apply LE; lia|].
    assert (C2' : lclose (10 * eps) (B2R (nmul ri rj)) (Ri * Rj)).
    { apply lclose_weak with (2 * u53 + 8 * eps); [lra|]. eapply lclose_trans; eauto. }
    assert (C3 := lclose_sqrt _ _ _ C2'). pose proof (lclose_pos _ _ _ C2') as P2.
    assert (BS : forall z x, bpow radix2 (2 * z) <= x -> bpow radix2 z <= sqrt x).
    { intros z a Ha. rewrite <- (sqrt_Rsqr (bpow radix2 z)) by apply bpow_ge_0. apply sqrt_le_1_alt. unfold Rsqr. rewrite BP. now replace (z + z)%Z with (2 * z)%Z by lia. }
    assert (BS' : forall z x, x <= bpow radix2 (2 * z) -> sqrt x <= bpow radix2 z).
    { intros z a Ha. rewrite <- (sqrt_Rsqr (bpow radix2 z)) by apply bpow_ge_0. apply sqrt_le_1_alt. unfold Rsqr. rewrite BP. now replace (z + z)%Z with (2 * z)%Z by lia. }
    assert (B3 : bpow radix2 (-300) <= sqrt (Ri * Rj) <= bpow radix2 300).
    { split; [apply BS|apply BS']; apply B2. }
    assert (B3' := lclose_range _ _ _ _ _ C3 B3 ltac:(lra)).
    destruct (sqrt64 (nmul ri rj) F2 P2) as (F3 & M3); [apply Rle_trans with (2 := proj1 B3'); apply bpow_le; lia|].
    assert (C3' : lclose (7 * eps) (B2R (nsqrt (nmul ri rj))) (sqrt (Ri * Rj))).
    { apply lclose_weak with (2 * u53 + 10 * eps / 2); [lra|]. eapply lclose_trans; eauto. }
    assert (C4 := lclose_div _ _ _ _ _ _ C1' C3').
    assert (B4 : bpow radix2 (-900) <= f <= bpow radix2 900).
    { unfold f, Rdiv. change (-900)%Z with (-300 + -300 + - (300))%Z. change 900%Z with (300 + 300 + - (-300))%Z.
      apply PW; [exact B1|]. rewrite !bpow_opp. pose proof (bpow_gt_0 radix2 (-300)). pose proof (bpow_gt_0 radix2 300).
      split; apply Rinv_le; lra. }
    assert (B4' := lclose_range _ _ _ _ _ C4 B4 ltac:(lra)).
    destruct (div64 (nmul x d) (nsqrt (nmul ri rj)) F1) as (F4 & M4).
    { apply Rgt_not_eq. eapply lclose_pos; eauto. }
    { revert B4'. apply LE; lia. }
    split; [exact F4|]. split; [pose proof (bpow_gt_0 radix2 (-900)); lra|].
    assert (C5 : lclose (697 * eps) (B2R v) f).
    { apply lclose_weak with (2 * u53 + (688 * eps + 7 * eps)); [lra|]. eapply lclose_trans; eauto. }
    pose proof (lclose_abs _ _ _ C5 ltac:(lra)) as A. eapply Rle_trans; [exact A|].
    pose proof (bpow_gt_0 radix2 (-900)) as P9. apply Rmult_le_compat_r; lra.
  Qed.
End Mean.
