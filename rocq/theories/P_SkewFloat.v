(** Proofs about the skewness in float64. *)
From Coq Require Import ZArith Reals Lra List Arith Lia Bool Permutation.
From Flocq Require Import Core BinarySingleNaN.
From Verif Require Import Py Num NumT Arr M_Hubness P_F64 P_LSFloat P_LSAcc P_NicdmAcc P_Skew M_SkewFloat S_SkewFloat.
Import ListNotations.
Local Open Scope nat_scope.
Local Open Scope R_scope.

Lemma z_small z : (Z.abs z < 2 ^ 53)%Z -> Rabs (rnd (IZR z)) < bpow radix2 1024.
Proof.
  intros H. rewrite rnd_Z by exact H. rewrite <- abs_IZR. apply Rlt_le_trans with (bpow radix2 53).
  - change (bpow radix2 53) with (IZR (2 ^ 53)). now apply IZR_lt.
  - apply bpow_le. lia.
Qed.

Lemma whole_add x y a b : whole x a -> whole y b -> (Z.abs (a + b) < 2 ^ 53)%Z -> whole (nadd x y) (a + b).
Proof.
  intros (Fx & Ex) (Fy & Ey) H. change (nadd x y) with (Bplus mode_NE x y).
  pose proof (Bplus_correct 53 1024 prec53 emax1024 mode_NE x y Fx Fy) as B. fold (rnd (B2R x + B2R y)) in B.
  rewrite Ex, Ey, <- plus_IZR in B. rewrite (Rlt_bool_true _ _ (z_small _ H)) in B. destruct B as (V & F & _). split; [exact F|].
  rewrite V. now apply rnd_Z.
Qed.

Lemma whole_sub x y a b : whole x a -> whole y b -> (Z.abs (a - b) < 2 ^ 53)%Z -> whole (nsub x y) (a - b).
Proof.
  intros (Fx & Ex) (Fy & Ey) H. change (nsub x y) with (Bminus mode_NE x y).
  pose proof (Bminus_correct 53 1024 prec53 emax1024 mode_NE x y Fx Fy) as B. fold (rnd (B2R x - B2R y)) in B.
  rewrite Ex, Ey, <- minus_IZR in B. rewrite (Rlt_bool_true _ _ (z_small _ H)) in B. destruct B as (V & F & _). split; [exact F|].
  rewrite V. now apply rnd_Z.
Qed.

Lemma whole_mul x y a b : whole x a -> whole y b -> (Z.abs (a * b) < 2 ^ 53)%Z -> whole (nmul x y) (a * b).
Proof.
  intros (Fx & Ex) (Fy & Ey) H. destruct (mul_cases x y Fx Fy) as (_ & [(_ & F & R)|(B & _)]).
  - split; [exact F|]. rewrite R, Ex, Ey, <- mult_IZR. now apply rnd_Z.
  - exfalso. rewrite Ex, Ey, <- mult_IZR in B. pose proof (z_small _ H). lra.
Qed.

Lemma ztotal_app l l' : ztotal (l ++ l') = (ztotal l + ztotal l')%Z.
Proof. induction l as [|a l IH]; cbn; [reflexivity|]. fold (ztotal (l ++ l')) (ztotal l). lia. Qed.
Lemma ztotal_perm l l' : Permutation l l' -> ztotal l = ztotal l'.
Proof. induction 1; cbn; fold ztotal in *; unfold ztotal in *; lia. Qed.
Lemma ztotal_abs l : (Z.abs (ztotal l) <= ztotal (map Z.abs l))%Z.
Proof. induction l as [|a l IH]; cbn; [lia|]. fold (ztotal l) (ztotal (map Z.abs l)). lia. Qed.
Lemma ztotal_abs_nonneg l : (0 <= ztotal (map Z.abs l))%Z.
Proof. pose proof (ztotal_abs l). lia. Qed.

(** the order of summation does not matter *)
Lemma added_exact l x : added_up l x -> forall zs, Forall2 whole l zs -> (ztotal (map Z.abs zs) < 2 ^ 53)%Z -> whole x (ztotal zs).
Proof.
  induction 1 as [|x|l l1 l2 x1 x2 HP H1 IH1 H2 IH2]; intros zs HF HB.
  - inversion HF. split; [exact (proj2 n0_f64)|exact (proj1 n0_f64)].
  - inversion HF as [|? z ? zs' Hz Hn]; subst. inversion Hn; subst. cbn. rewrite Z.add_0_r. exact Hz.
  - destruct (Permutation_Forall2 HP HF) as (zs' & HP' & HF'). apply Forall2_app_inv_l in HF' as (za & zb & Fa & Fb & ->).
    rewrite (ztotal_perm _ _ HP'), ztotal_app.
    rewrite (ztotal_perm _ _ (Permutation_map Z.abs HP')), map_app, ztotal_app in HB.
    pose proof (ztotal_abs_nonneg za). pose proof (ztotal_abs_nonneg zb). pose proof (ztotal_abs za). pose proof (ztotal_abs zb).
    apply whole_add; [apply IH1; [exact Fa|lia]|apply IH2; [exact Fb|lia]|lia].
Qed.

Lemma ztotal_le {A} (f g : A -> Z) l : (forall a, In a l -> (f a <= g a)%Z) -> (ztotal (map f l) <= ztotal (map g l))%Z.
Proof.
  induction l as [|a l IH]; cbn; intros H; [lia|]. fold (ztotal (map f l)) (ztotal (map g l)).
  pose proof (H a (or_introl eq_refl)). assert (ztotal (map f l) <= ztotal (map g l))%Z by (apply IH; intros; apply H; now right). lia.
Qed.
Lemma ztotal_mult {A} c (f : A -> Z) l : ztotal (map (fun a => (c * f a)%Z) l) = (c * ztotal (map f l))%Z.
Proof. induction l as [|a l IH]; cbn; [lia|]. fold (ztotal (map f l)) (ztotal (map (fun a => (c * f a)%Z) l)). lia. Qed.
Lemma ztotal_in {A} (f : A -> Z) l a : (forall a, In a l -> (0 <= f a)%Z) -> In a l -> (f a <= ztotal (map f l))%Z.
Proof.
  induction l as [|b l IH]; cbn; intros H []; fold (ztotal (map f l)).
  - subst. assert (0 <= ztotal (map f l))%Z; [|lia].
    apply Z.le_trans with (ztotal (map (fun _ => 0%Z) l)); [|apply ztotal_le; intros; apply H; now right].
    clear. induction l; cbn; [lia|]. fold (ztotal (map (fun _ : A => 0%Z) l)). lia.
  - pose proof (H b (or_introl eq_refl)). assert (f a <= ztotal (map f l))%Z by (apply IH; auto). lia.
Qed.
Lemma sumR_Z {A} (f : A -> Z) (g : A -> R) l : (forall a, g a = IZR (f a)) -> sumR (map g l) = IZR (ztotal (map f l)).
Proof.
  intros H. induction l as [|a l IH]; cbn; [reflexivity|]. fold (sumR (map g l)) (ztotal (map f l)). rewrite plus_IZR, IH, H. reflexivity.
Qed.

(** the quotient of two whole numbers *)
Lemma whole_div x y a b : whole x a -> whole y b -> (0 < b < 2 ^ 53)%Z -> (Z.abs a < 2 ^ 53)%Z ->
  nisfin (ndiv x y) = true /\ B2R (ndiv x y) = rnd (IZR a / IZR b).
Proof.
  intros (Fx & Ex) (Fy & Ey) Hb Ha. assert (Pb : 1 <= IZR b) by (apply IZR_le; lia).
  destruct (div_cases x y Fx) as (_ & [(_ & F & R)|(B & _)]); [lra| |].
  - split; [exact F|]. rewrite R, Ex, Ey. reflexivity.
  - exfalso. rewrite Ex, Ey in B. revert B. apply Rlt_not_le.
    assert (Q : Rabs (IZR a / IZR b) <= bpow radix2 53).
    { unfold Rdiv. rewrite Rabs_mult, (Rabs_pos_eq (/ IZR b)) by (left; apply Rinv_0_lt_compat; lra). rewrite <- abs_IZR.
      assert (IZR (Z.abs a) <= bpow radix2 53) by (change (bpow radix2 53) with (IZR (2 ^ 53)); apply IZR_le; lia).
      assert (/ IZR b <= 1) by (rewrite <- Rinv_1; apply Rinv_le; lra). assert (0 <= IZR (Z.abs a)) by (apply IZR_le; lia).
      assert (0 < / IZR b) by (apply Rinv_0_lt_compat; lra). nra. }
    apply Rabs_le_inv in Q. apply Rle_lt_trans with (bpow radix2 53); [|apply bpow_lt; lia].
    apply Rabs_le. split.
    + assert (G : rnd (IZR (- 2 ^ 53 + 0)) <= rnd (IZR a / IZR b)).
      { apply rnd_le. rewrite Z.add_0_r, opp_IZR. change (IZR (2 ^ 53)) with (bpow radix2 53). lra. }
      assert (E : rnd (IZR (- 2 ^ 53 + 0)) = - bpow radix2 53).
      { rewrite Z.add_0_r, opp_IZR. change (IZR (2 ^ 53)) with (bpow radix2 53). apply rnd_gen. apply generic_format_opp, generic_format_bpow. cbn. lia. }
      lra.
    + apply rnd_le_bpow; [lia|apply Q].
Qed.

Section Main.
  Variables (eps : R) (vsum : list f64 -> f64) (vpow15 : f64 -> f64) (tol : f64).
  Hypothesis He : u53 <= eps <= bpow radix2 (-20).
  Hypothesis Hs : sum_exact vsum.
  Hypothesis Hp : pow15_close eps vpow15.
  Hypothesis Ht : nisfin tol = true /\ 0 <= B2R tol <= bpow radix2 (-49).

  Variables (Nk : list nat) (n k : nat).
  Hypothesis HL : length Nk = n.
  Hypothesis Hk : (1 <= k <= n)%nat.
  Hypothesis Hc : forall c, In c Nk -> (c <= n)%nat.
  Hypothesis Hsum : sum_nat Nk = (n * k)%nat.
  Hypothesis Hsz : (2 * Z.of_nat n * Z.of_nat n * Z.of_nat n * Z.of_nat k < 2 ^ 53)%Z.

  Let dz (c : nat) : Z := (Z.of_nat c - Z.of_nat k)%Z.
  Let Q2 : Z := ztotal (map (fun c => dz c * dz c)%Z Nk).
  Let Q3 : Z := ztotal (map (fun c => dz c * dz c * dz c)%Z Nk).

  Lemma n_small : (1 <= Z.of_nat n < 2 ^ 18)%Z.
  Proof.
    split; [lia|]. destruct (Z.lt_ge_cases (Z.of_nat n) (2 ^ 18)) as [|G]; [assumption|exfalso].
    set (z := Z.of_nat n) in *. assert (1 <= Z.of_nat k)%Z by lia. set (w := Z.of_nat k) in *.
    assert (2 ^ 18 * 2 ^ 18 <= z * z)%Z by (apply Z.mul_le_mono_nonneg; lia).
    assert (2 ^ 36 * 2 ^ 18 <= z * z * z)%Z by (apply Z.mul_le_mono_nonneg; lia).
    assert (2 ^ 54 * 1 <= z * z * z * w)%Z by (apply Z.mul_le_mono_nonneg; lia). lia.
  Qed.

  Lemma zsum_Nk : ztotal (map Z.of_nat Nk) = (Z.of_nat n * Z.of_nat k)%Z.
  Proof.
    rewrite <- Nat2Z.inj_mul, <- Hsum. clear. induction Nk as [|c l IH]; [reflexivity|]. cbn. fold (ztotal (map Z.of_nat l)). rewrite IH.
    unfold sum_nat. cbn. lia.
  Qed.

  Lemma dev_bound c : In c Nk -> (Z.abs (dz c) <= Z.of_nat n)%Z.
  Proof. intros H. apply Hc in H. unfold dz. lia. Qed.

  Lemma dev_total : (ztotal (map (fun c => Z.abs (dz c)) Nk) <= 2 * Z.of_nat n * Z.of_nat k)%Z.
  Proof.
    assert (G : forall l, (ztotal (map (fun c => Z.abs (dz c)) l) <= ztotal (map Z.of_nat l) + Z.of_nat (length l) * Z.of_nat k)%Z).
    { induction l as [|c l IH]; [cbn; lia|]. cbn [map length]. unfold ztotal in *. cbn [fold_right]. unfold dz in *. lia. }
    specialize (G Nk). rewrite zsum_Nk, HL in G. lia.
  Qed.

  Lemma dev2_total : (ztotal (map (fun c => Z.abs (dz c * dz c)) Nk) <= Z.of_nat n * (2 * Z.of_nat n * Z.of_nat k))%Z.
  Proof.
    apply Z.le_trans with (ztotal (map (fun c => (Z.of_nat n * Z.abs (dz c))%Z) Nk)).
    - apply ztotal_le. intros c H. rewrite Z.abs_mul. apply Z.mul_le_mono_nonneg_r; [lia|now apply dev_bound].
    - rewrite ztotal_mult. apply Z.mul_le_mono_nonneg_l; [lia|apply dev_total].
  Qed.

  Lemma dev3_total : (ztotal (map (fun c => Z.abs (dz c * dz c * dz c)) Nk) <= Z.of_nat n * (Z.of_nat n * (2 * Z.of_nat n * Z.of_nat k)))%Z.
  Proof.
    apply Z.le_trans with (ztotal (map (fun c => (Z.of_nat n * Z.abs (dz c * dz c))%Z) Nk)).
    - apply ztotal_le. intros c H. rewrite (Z.abs_mul (_ * _)), Z.mul_comm. apply Z.mul_le_mono_nonneg_r; [lia|now apply dev_bound].
    - rewrite ztotal_mult. apply Z.mul_le_mono_nonneg_l; [lia|apply dev2_total].
  Qed.

  Lemma whole_nat c : (Z.of_nat c < 2 ^ 53)%Z -> whole (nofnat (V:=f64) c) (Z.of_nat c).
  Proof. intros H. destruct (nofnat64 c) as (F & E); [lia|]. split; [exact F|]. now rewrite E, INR_IZR_INZ. Qed.

  Lemma map_whole {A} (f : A -> f64) (g : A -> Z) l : (forall a, In a l -> whole (f a) (g a)) -> Forall2 whole (map f l) (map g l).
  Proof. induction l as [|a l IH]; intros H; cbn; constructor; [apply H; now left|apply IH; intros; apply H; now right]. Qed.

  Lemma skew_mean : whole (mean_of vsum (map nofnat Nk)) (Z.of_nat k).
  Proof.
    pose proof n_small as Nn. assert (Kn : (Z.of_nat k <= Z.of_nat n)%Z) by lia.
    assert (NK : (0 <= Z.of_nat n * Z.of_nat k < 2 ^ 53)%Z).
    { split; [lia|]. apply Z.le_lt_trans with (2 ^ 18 * 2 ^ 18)%Z; [apply Z.mul_le_mono_nonneg; lia|lia]. }
    assert (S0 : whole (vsum (map nofnat Nk)) (Z.of_nat n * Z.of_nat k)).
    { rewrite <- zsum_Nk. apply Hs.
      - apply map_whole. intros c H. apply Hc in H. apply whole_nat. lia.
      - rewrite map_map. rewrite (map_ext _ Z.of_nat) by (intros; lia). rewrite zsum_Nk. lia. }
    unfold mean_of. rewrite map_length. assert (E : length Nk = n) by exact HL. rewrite E.
    destruct (whole_div _ _ _ _ S0 (whole_nat n ltac:(lia))) as (F & V); [lia|lia|]. split; [exact F|]. rewrite V.
    rewrite mult_IZR. replace (IZR (Z.of_nat n) * IZR (Z.of_nat k) / IZR (Z.of_nat n)) with (IZR (Z.of_nat k)).
    - apply rnd_Z. lia.
    - field. apply not_0_IZR. lia.
  Qed.

  Let dev := map (fun x => nsub x (mean_of vsum (map nofnat Nk))) (map nofnat Nk).

  Lemma dev_whole : dev = map (fun c => nsub (nofnat c) (mean_of vsum (map nofnat Nk))) Nk /\
    forall c, In c Nk -> whole (nsub (nofnat c) (mean_of vsum (map nofnat Nk))) (dz c).
  Proof.
    split; [unfold dev; apply map_map|]. intros c H. pose proof n_small. pose proof (dev_bound c H). apply Hc in H.
    apply whole_sub; [apply whole_nat; lia|exact skew_mean|fold (dz c); lia].
  Qed.

  Lemma dev2_small c : In c Nk -> (Z.abs (dz c * dz c) < 2 ^ 53)%Z.
  Proof.
    intros H. pose proof n_small. pose proof (dev_bound c H). rewrite Z.abs_mul.
    apply Z.le_lt_trans with (2 ^ 18 * 2 ^ 18)%Z; [apply Z.mul_le_mono_nonneg; lia|lia].
  Qed.
  Lemma dev3_small c : In c Nk -> (Z.abs (dz c * dz c * dz c) < 2 ^ 53)%Z.
  Proof.
    intros H. pose proof dev3_total as T. pose proof (ztotal_in (fun c => Z.abs (dz c * dz c * dz c)) Nk c (fun a _ => Z.abs_nonneg _) H) as I.
    cbv beta in I. lia.
  Qed.

  Lemma mean_whole (f : nat -> f64) (g : nat -> Z) : (forall c, In c Nk -> whole (f c) (g c)) ->
    (ztotal (map (fun c => Z.abs (g c)) Nk) < 2 ^ 53)%Z ->
    nisfin (mean_of vsum (map f Nk)) = true /\ B2R (mean_of vsum (map f Nk)) = rnd (IZR (ztotal (map g Nk)) / IZR (Z.of_nat n)).
  Proof.
    intros W T. pose proof n_small as Nn. unfold mean_of. rewrite map_length. assert (El : length Nk = n) by exact HL. rewrite El.
    apply whole_div; [|apply whole_nat; lia|lia|].
    - apply Hs; [now apply map_whole|now rewrite map_map].
    - apply Z.le_lt_trans with (2 := T). rewrite <- (map_map g Z.abs). apply ztotal_abs.
  Qed.

  Lemma m2_value : nisfin (mean_of vsum (map (fun d => nmul d d) dev)) = true /\
    B2R (mean_of vsum (map (fun d => nmul d d) dev)) = rnd (IZR Q2 / IZR (Z.of_nat n)).
  Proof.
    pose proof n_small as Nn. destruct dev_whole as (E & W). rewrite E, map_map. pose proof dev2_total as T. apply mean_whole.
    - intros c H. apply whole_mul; [now apply W|now apply W|now apply dev2_small].
    - apply Z.le_lt_trans with (1 := T). apply Z.le_lt_trans with (2 := Hsz).
      assert (Z.of_nat n * (2 * Z.of_nat n * Z.of_nat k) * 1 <= Z.of_nat n * (2 * Z.of_nat n * Z.of_nat k) * Z.of_nat n)%Z by (apply Z.mul_le_mono_nonneg_l; lia). lia.
  Qed.

  Lemma m3_value : nisfin (mean_of vsum (map (fun d => nmul (nmul d d) d) dev)) = true /\
    B2R (mean_of vsum (map (fun d => nmul (nmul d d) d) dev)) = rnd (IZR Q3 / IZR (Z.of_nat n)).
  Proof.
    destruct dev_whole as (E & W). rewrite E, map_map. pose proof dev3_total as T. apply mean_whole.
    - intros c H. apply whole_mul; [apply whole_mul; [now apply W|now apply W|now apply dev2_small]|now apply W|now apply dev3_small].
    - lia.
  Qed.

  Lemma exact_moments : cmoment 2 (map INR Nk) = IZR Q2 / IZR (Z.of_nat n) /\ cmoment 3 (map INR Nk) = IZR Q3 / IZR (Z.of_nat n).
  Proof.
    pose proof n_small as Nn. assert (M : meanR (map INR Nk) = INR k).
    { unfold meanR. rewrite map_length, HL. rewrite (sumR_Z Z.of_nat INR Nk INR_IZR_INZ), zsum_Nk, mult_IZR, !INR_IZR_INZ. field. apply not_0_IZR. lia. }
    unfold cmoment. rewrite M. unfold meanR. rewrite !map_length, HL, !map_map, <- INR_IZR_INZ.
    split; f_equal.
    - apply sumR_Z. intros c. unfold dz. rewrite mult_IZR, minus_IZR, <- !INR_IZR_INZ. cbn [pow]. ring.
    - apply sumR_Z. intros c. unfold dz. rewrite !mult_IZR, minus_IZR, <- !INR_IZR_INZ. cbn [pow]. ring.
  Qed.

  (** the threshold under which scipy takes the variance for 0 *)
  Lemma threshold : let t := nmul tol (mean_of vsum (map nofnat Nk)) in
    is_finite (nmul t t) = true /\ 0 <= B2R (nmul t t) <= bpow radix2 (-62).
  Proof.
    destruct skew_mean as (Fm & Vm). destruct Ht as (Ft & Bt). pose proof n_small as Nn. intros t.
    assert (Kb : 1 <= IZR (Z.of_nat k) <= bpow radix2 18) by (split; [apply IZR_le; lia|change (bpow radix2 18) with (IZR (2 ^ 18)); apply IZR_le; lia]).
    assert (P49 := bpow_gt_0 radix2 (-49)).
    assert (B1 : 0 <= B2R tol * B2R (mean_of vsum (map nofnat Nk)) <= bpow radix2 (-31)).
    { rewrite Vm. split; [apply Rmult_le_pos; lra|]. change (-31)%Z with (-49 + 18)%Z. rewrite bpow_plus. apply Rmult_le_compat; lra. }
    assert (B2 : bpow radix2 (-31) <= bpow radix2 1023) by (apply bpow_le; lia).
    destruct (mul_cases tol (mean_of vsum (map nofnat Nk)) Ft Fm) as (_ & [(_ & F1 & R1)|(B & _)]).
    2:{ exfalso. apply Rle_not_lt in B. apply B, under_max; lra. }
    fold t in F1, R1.
    assert (B3 : 0 <= B2R t <= bpow radix2 (-31)).
    { rewrite R1. split; [rewrite <- rnd_0; apply rnd_le; lra|apply rnd_le_bpow; [lia|apply B1]]. }
    assert (B4 : 0 <= B2R t * B2R t <= bpow radix2 (-62)).
    { split; [apply Rmult_le_pos; lra|]. change (-62)%Z with (-31 + -31)%Z. rewrite bpow_plus. apply Rmult_le_compat; lra. }
    assert (B5 : bpow radix2 (-62) <= bpow radix2 1023) by (apply bpow_le; lia).
    destruct (mul_cases t t F1 F1) as (_ & [(_ & F2 & R2)|(B & _)]).
    2:{ exfalso. apply Rle_not_lt in B. apply B, under_max; lra. }
    split; [exact F2|]. rewrite R2. split; [rewrite <- rnd_0; apply rnd_le; lra|apply rnd_le_bpow; [lia|apply B4]].
  Qed.

  (** if all occurrences are equal, the result is 0 *)
  Lemma skew_zero : Q2 = 0%Z -> skew_of vsum vpow15 tol Nk = n0.
  Proof.
    intros Z0. unfold skew_of. fold dev. destruct m2_value as (F & V). rewrite Z0 in V. unfold Rdiv in V. rewrite Rmult_0_l, rnd_0 in V.
    destruct threshold as (F2 & B2).
    assert (G : nle (mean_of vsum (map (fun d => nmul d d) dev)) (nmul (nmul tol (mean_of vsum (map nofnat Nk))) (nmul tol (mean_of vsum (map nofnat Nk)))) = true).
    { apply nle_B2R; [exact F|exact F2|]. rewrite V. apply B2. }
    rewrite G. reflexivity.
  Qed.

  (** otherwise the relative error is small *)
  Lemma skew_close : Q2 <> 0%Z ->
    let f := IZR Q3 / IZR (Z.of_nat n) / (IZR Q2 / IZR (Z.of_nat n) * sqrt (IZR Q2 / IZR (Z.of_nat n))) in
    nisfin (skew_of vsum vpow15 tol Nk) = true /\ Rabs (B2R (skew_of vsum vpow15 tol Nk) - f) <= 10 * eps * Rabs f.
  Proof.
    intros Z0 f. pose proof n_small as Nn. pose proof u53_pos as Pu.
    assert (E20 : eps <= / 1000000) by (apply Rle_trans with (1 := proj2 He); change (bpow radix2 (-20)) with (/ IZR (2 ^ 20)); apply Rinv_le; [lra|apply IZR_le; lia]).
    set (N := IZR (Z.of_nat n)) in *. assert (BN : 1 <= N <= bpow radix2 18).
    { unfold N. split; [apply IZR_le; lia|]. change (bpow radix2 18) with (IZR (2 ^ 18)). apply IZR_le. lia. }
    assert (PQ : (1 <= Q2 < 2 ^ 53)%Z).
    { pose proof dev2_total as T. assert (Q2 = ztotal (map (fun c => Z.abs (dz c * dz c)) Nk)) as E2.
      { unfold Q2. f_equal. apply map_ext. intros c. symmetry. apply Z.abs_eq. apply Z.square_nonneg. }
      split.
      - pose proof (ztotal_abs_nonneg (map (fun c => dz c * dz c)%Z Nk)) as P. rewrite map_map in P. lia.
      - rewrite E2. apply Z.le_lt_trans with (1 := T). apply Z.le_lt_trans with (2 := Hsz).
        assert (Z.of_nat n * (2 * Z.of_nat n * Z.of_nat k) * 1 <= Z.of_nat n * (2 * Z.of_nat n * Z.of_nat k) * Z.of_nat n)%Z by (apply Z.mul_le_mono_nonneg_l; lia). lia. }
    assert (B3 : (Z.abs Q3 < 2 ^ 53)%Z).
    { pose proof dev3_total as T. apply Z.le_lt_trans with (ztotal (map (fun c => Z.abs (dz c * dz c * dz c)) Nk)); [|lia].
      unfold Q3. rewrite <- (map_map (fun c => dz c * dz c * dz c)%Z Z.abs). apply ztotal_abs. }
    assert (PN : 0 < / N <= 1) by (split; [apply Rinv_0_lt_compat; lra|rewrite <- Rinv_1; apply Rinv_le; lra]).
    assert (LN : bpow radix2 (-18) <= / N) by (change (-18)%Z with (- (18))%Z; rewrite bpow_opp; apply Rinv_le; lra).
    set (M := IZR Q2 / N) in *.
    assert (BM : bpow radix2 (-18) <= M <= bpow radix2 53).
    { unfold M, Rdiv. assert (1 <= IZR Q2 <= bpow radix2 53) by (change (bpow radix2 53) with (IZR (2 ^ 53)); split; apply IZR_le; lia). split; nra. }
    assert (P18 := bpow_gt_0 radix2 (-18)).
    destruct m2_value as (F2 & V2). destruct m3_value as (F3 & V3). fold N in V2, V3. fold M in V2.
    unfold skew_of. fold dev. set (m2 := mean_of vsum (map (fun d => nmul d d) dev)) in *. set (m3 := mean_of vsum (map (fun d => nmul (nmul d d) d) dev)) in *.
    assert (L2 : lclose (2 * u53) (B2R m2) M) by (rewrite V2; apply lclose_rnd; apply Rle_trans with (2 := proj1 BM); apply bpow_le; lia).
    assert (Bm : bpow radix2 (-18) <= B2R m2 <= bpow radix2 53) by (rewrite V2; split; [apply rnd_ge_bpow; [lia|apply BM]|apply rnd_le_bpow; [lia|apply BM]]).
    destruct threshold as (Ft & Bt).
    set (t2 := nmul (nmul tol (mean_of vsum (map nofnat Nk))) (nmul tol (mean_of vsum (map nofnat Nk)))) in *.
    assert (G : nle m2 t2 = false).
    { destruct (nle m2 t2) eqn:E; [|reflexivity]. exfalso. apply (nle_B2R m2 t2 F2 Ft) in E.
      assert (bpow radix2 (-62) < bpow radix2 (-18)) by (apply bpow_lt; lia). lra. }
    rewrite G. destruct (Hp m2 F2) as (Fp & Ep).
    { split; [apply Rle_trans with (2 := proj1 Bm); apply bpow_le; lia|apply Rle_trans with (1 := proj2 Bm); apply bpow_le; lia]. }
    assert (Ps : 0 < sqrt (B2R m2)) by (apply sqrt_lt_R0; lra).
    assert (L3 : lclose (2 * eps) (B2R (vpow15 m2)) (B2R m2 * sqrt (B2R m2))) by (apply lclose_rel; [apply Rmult_lt_0_compat; lra|lra|exact Ep]).
    assert (L4 : lclose (2 * eps + 3 * u53) (B2R (vpow15 m2)) (M * sqrt M)).
    { apply lclose_trans with (1 := L3). replace (3 * u53) with (2 * u53 + 2 * u53 / 2) by field. apply lclose_mul; [exact L2|now apply lclose_sqrt]. }
    assert (Pp : 0 < B2R (vpow15 m2)) by exact (lclose_pos _ _ _ L4).
    assert (PM : 0 < M * sqrt M) by (apply Rmult_lt_0_compat; [lra|apply sqrt_lt_R0; lra]).
    destruct (Z.eq_dec Q3 0) as [Z3|Z3].
    - assert (Ef : f = 0) by (unfold f; rewrite Z3; unfold Rdiv; ring).
      assert (Em : B2R m3 = 0) by (rewrite V3, Z3; unfold Rdiv; rewrite Rmult_0_l; exact rnd_0).
      destruct (div_cases m3 (vpow15 m2) F3) as (_ & [(_ & F & R)|(B & _)]); [lra| |].
      + split; [exact F|]. rewrite R, Em, Ef. unfold Rdiv. rewrite Rmult_0_l, rnd_0, Rminus_0_r, Rabs_R0. lra.
      + exfalso. revert B. rewrite Em. unfold Rdiv. rewrite Rmult_0_l, rnd_0, Rabs_R0. apply Rlt_not_le, bpow_gt_0.
    - set (T := IZR Q3 / N) in *.
      assert (BT : bpow radix2 (-18) <= Rabs T <= bpow radix2 53).
      { unfold T, Rdiv. rewrite Rabs_mult, (Rabs_pos_eq (/ N)) by lra. rewrite <- abs_IZR.
        assert (1 <= IZR (Z.abs Q3) <= bpow radix2 53) by (change (bpow radix2 53) with (IZR (2 ^ 53)); split; apply IZR_le; lia). split; nra. }
      destruct (rnd_norm T) as (e1 & He1 & E1); [apply Rle_trans with (2 := proj1 BT); apply bpow_le; lia|].
      (* the quotient *)
      assert (BS : bpow radix2 (-27) <= M * sqrt M <= bpow radix2 80).
      { assert (S1 : bpow radix2 (-9) <= sqrt M) by (rewrite <- (sqrt_Rsqr (bpow radix2 (-9))) by apply bpow_ge_0; apply sqrt_le_1_alt; unfold Rsqr; rewrite <- bpow_plus; apply BM).
        assert (S2 : sqrt M <= bpow radix2 27).
        { rewrite <- (sqrt_Rsqr (bpow radix2 27)) by apply bpow_ge_0. apply sqrt_le_1_alt. unfold Rsqr. rewrite <- bpow_plus.
          apply Rle_trans with (1 := proj2 BM). apply bpow_le. lia. }
        pose proof (bpow_gt_0 radix2 (-9)). change (-27)%Z with (-18 + -9)%Z. change 80%Z with (53 + 27)%Z. rewrite !bpow_plus.
        split; apply Rmult_le_compat; lra. }
      pose proof (lclose_range _ _ _ _ _ L4 BS ltac:(lra)) as BP.
      assert (Bq : bpow radix2 (-18 - 1) <= Rabs (B2R m3) <= bpow radix2 (53 + 1)).
      { assert (U1 : u53 <= / 2) by lra. rewrite V3, E1, Rabs_mult. replace (-18 - 1)%Z with (-1 + -18)%Z by lia. replace (53 + 1)%Z with (1 + 53)%Z by lia. rewrite !bpow_plus.
        change (bpow radix2 (-1)) with (/ 2). change (bpow radix2 1) with 2. apply Rabs_le_inv in He1.
        assert (/ 2 <= Rabs (1 + e1) <= 2) by (rewrite Rabs_pos_eq; lra). pose proof (Rabs_pos T). split; nra. }
      assert (Bx : bpow radix2 (-1022) <= Rabs (B2R m3 / B2R (vpow15 m2)) <= bpow radix2 1000).
      { unfold Rdiv. rewrite Rabs_mult, (Rabs_pos_eq (/ _)) by (left; now apply Rinv_0_lt_compat).
        pose proof (bpow_gt_0 radix2 (-27 - 1)). assert (I1 : bpow radix2 (- (80 + 1)) <= / B2R (vpow15 m2)) by (rewrite bpow_opp; apply Rinv_le; lra).
        assert (I2 : / B2R (vpow15 m2) <= bpow radix2 (- (-27 - 1))) by (rewrite bpow_opp; apply Rinv_le; lra).
        pose proof (bpow_gt_0 radix2 (- (80 + 1))). pose proof (bpow_gt_0 radix2 (-18 - 1)). split.
        - apply Rle_trans with (bpow radix2 (-18 - 1) * bpow radix2 (- (80 + 1))); [rewrite <- bpow_plus; apply bpow_le; lia|apply Rmult_le_compat; lra].
        - apply Rle_trans with (bpow radix2 (53 + 1) * bpow radix2 (- (-27 - 1))); [apply Rmult_le_compat; lra|rewrite <- bpow_plus; apply bpow_le; lia]. }
      destruct (rnd_norm (B2R m3 / B2R (vpow15 m2)) (proj1 Bx)) as (e2 & He2 & E2).
      destruct (div_cases m3 (vpow15 m2) F3) as (_ & [(_ & F & R)|(B & _)]); [lra| |].
      2:{ exfalso. revert B. apply Rlt_not_le. rewrite E2, Rabs_mult. apply Rabs_le_inv in He2. pose proof (bpow_gt_0 radix2 1000).
          apply Rle_lt_trans with (bpow radix2 1000 * bpow radix2 1); [|rewrite <- bpow_plus; apply bpow_lt; lia].
          apply Rmult_le_compat; [apply Rabs_pos|apply Rabs_pos|apply Bx|]. change (bpow radix2 1) with 2. rewrite Rabs_pos_eq; lra. }
      split; [exact F|]. rewrite R, E2, V3, E1. set (P := B2R (vpow15 m2)) in *. set (PE := M * sqrt M) in *.
      assert (Hf : f = T / PE) by reflexivity.
      set (w := (1 + e1) * (1 + e2) * (PE / P)).
      replace (T * (1 + e1) / P * (1 + e2)) with (f * w) by (rewrite Hf; unfold w; field; lra).
      replace (f * w - f) with (f * (w - 1)) by ring. rewrite Rabs_mult, Rmult_comm. apply Rmult_le_compat_r; [apply Rabs_pos|].
      assert (LW : lclose (2 * u53 + 2 * u53 + (2 * eps + 3 * u53)) w 1).
      { replace 1 with (1 * 1 * (P / P)) by (field; lra). unfold w. apply lclose_mul.
        - apply lclose_mul; apply lclose_rel; try lra; match goal with |- Rabs (1 + ?e - 1) <= _ => replace (1 + e - 1) with e by ring end; lra.
        - replace (2 * eps + 3 * u53) with (2 * eps + 3 * u53 + 0) by ring. apply lclose_div; [|now apply lclose_refl].
          apply lclose_iff in L4 as (A1 & A2 & A3). apply lclose_iff. split; [exact A2|]. split; [exact A1|]. rewrite Rabs_minus_sym. exact A3. }
      assert (Hu : 2 * u53 + 2 * u53 + (2 * eps + 3 * u53) <= 9 * eps) by lra.
      pose proof (lclose_abs _ _ _ LW ltac:(lra)) as A. lra.
  Qed.

  Lemma skew64 : nisfin (skew_of vsum vpow15 tol Nk) = true /\
    Rabs (B2R (skew_of vsum vpow15 tol Nk) - skewR (map INR Nk)) <= 10 * eps * Rabs (skewR (map INR Nk)).
  Proof.
    destruct exact_moments as (E2 & E3). unfold skewR. rewrite E2, E3. pose proof n_small as Nn.
    assert (PN : 0 < IZR (Z.of_nat n)) by (apply IZR_lt; lia).
    destruct (Z.eq_dec Q2 0) as [Z0|Z0].
    - rewrite (skew_zero Z0). destruct (Req_EM_T (IZR Q2 / IZR (Z.of_nat n)) 0) as [_|C]; [|exfalso; apply C; rewrite Z0; unfold Rdiv; ring].
      destruct n0_f64 as (E & F). split; [exact F|]. rewrite E, Rminus_0_r, Rabs_R0. lra.
    - destruct (Req_EM_T (IZR Q2 / IZR (Z.of_nat n)) 0) as [C|_]; [|exact (skew_close Z0)]. exfalso. apply Z0, eq_IZR.
      apply Rmult_eq_reg_r with (/ IZR (Z.of_nat n)); [unfold Rdiv in C; lra|apply Rinv_neq_0_compat; lra].
  Qed.
End Main.
