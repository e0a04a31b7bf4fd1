(** Facts about float32 and its conversion to float64. *)
From Coq Require Import String.
From Coq Require Import ZArith Reals Lra List Arith Lia Bool Permutation.
From Flocq Require Import Core BinarySingleNaN.
From Verif Require Import Py Num NumT NumF32 Arr Sort Conc S_Neighbors S_LS M_IO M_Hubness M_SNN M_LS M_LS32.
From Verif Require Import P_LS P_LS2 P_F64 P_F32 S_LSFloat P_LSFloat.
Import ListNotations.
Local Open Scope R_scope.

Lemma fmt32 (x : f32) : generic_format radix2 (SpecFloat.fexp 24 128) (B2R x).
Proof. apply generic_format_B2R. Qed.

Lemma f64_of32_fin (x : f32) : is_finite x = true ->
  is_finite (f64_of32 x) = true /\ B2R (f64_of32 x) = B2R x /\ Bsign (f64_of32 x) = Bsign x.
Proof.
  intros F. destruct x as [s|s| |s m e H]; try discriminate; [auto|].
  pose proof (fmt32 (B754_finite s m e H)) as G. pose proof (abs_B2R_lt_emax _ _ (B754_finite s m e H)) as L.
  unfold f64_of32.
  pose proof (binary_normalize_correct 53 1024 prec53 emax1024 mode_NE (cond_Zopp s (Zpos m)) e s) as K. cbv zeta in K.
  change (F2R {| Fnum := cond_Zopp s (Z.pos m); Fexp := e |}) with (B2R (B754_finite s m e H)) in K.
  set (v := B2R (B754_finite s m e H)) in *.
  assert (G' : generic_format radix2 (SpecFloat.fexp 53 1024) v).
  { apply (FLT_format_generic radix2 (SpecFloat.emin 24 128) 24) in G. destruct G as [f E Hm He].
    apply (generic_format_FLT radix2 (SpecFloat.emin 53 1024) 53). exists f; [exact E| |].
    - apply Z.lt_trans with (1 := Hm). reflexivity.
    - apply Z.le_trans with (2 := He). vm_compute. discriminate. }
  rewrite (round_generic radix2 _ _ _ G') in K.
  rewrite Rlt_bool_true in K.
  2:{ apply Rlt_trans with (1 := L). apply bpow_lt. lia. }
  destruct K as (K1 & K2 & K3). split; [exact K2|]. split; [exact K1|]. rewrite K3. cbn [Bsign].
  unfold v. cbn [B2R]. destruct s; cbn [cond_Zopp].
  - rewrite Rcompare_Lt; [reflexivity|]. apply F2R_lt_0. cbn. lia.
  - rewrite Rcompare_Gt; [reflexivity|]. apply F2R_gt_0. cbn. lia.
Qed.

Lemma pos32 (x : f32) : 0 < B2R x -> bpow radix2 (-149) <= B2R x.
Proof.
  intros H. apply (generic_format_ge_bpow radix2 (SpecFloat.fexp 24 128) (-149)); [|exact H|apply fmt32].
  intros e. unfold SpecFloat.fexp, SpecFloat.emin. lia.
Qed.

Lemma rnd32_tiny x : 0 <= x <= bpow radix2 (-152) -> rnd32 x = 0.
Proof.
  intros (H0 & H1). destruct (Req_dec x 0) as [->|N]; [apply rnd32_0|].
  unfold rnd32. cbn [round_mode].
  apply (round_N_small_pos radix2 (SpecFloat.fexp 24 128) _ x (mag radix2 x)).
  - split; [|].
    + pose proof (bpow_mag_le radix2 x N) as B. rewrite Rabs_pos_eq in B by exact H0. exact B.
    + pose proof (bpow_mag_gt radix2 x) as B. rewrite Rabs_pos_eq in B by exact H0. exact B.
  - assert ((mag radix2 x <= -151)%Z).
    { apply mag_le_bpow; [exact N|]. rewrite Rabs_pos_eq by exact H0.
      apply Rle_lt_trans with (1 := H1). apply bpow_lt. lia. }
    unfold SpecFloat.fexp, SpecFloat.emin. lia.
Qed.

(** products of tiny float32 numbers are zero *)
Lemma mul32_tiny (x y : f32) : is_finite x = true -> is_finite y = true ->
  0 < B2R x <= bpow radix2 (-76) -> 0 < B2R y <= bpow radix2 (-76) -> nmul x y = B754_zero false.
Proof.
  intros Fx Fy Hx Hy. change (nmul x y) with (Bmult mode_NE x y).
  pose proof (Bmult_correct 24 128 prec24 emax128 mode_NE x y) as B.
  assert (P : 0 <= B2R x * B2R y <= bpow radix2 (-152)).
  { split; [apply Rmult_le_pos; lra|]. replace (-152)%Z with (-76 + -76)%Z by lia. rewrite bpow_plus.
    apply Rmult_le_compat; lra. }
  fold (rnd32 (B2R x * B2R y)) in B. rewrite (rnd32_tiny _ P) in B.
  rewrite Rlt_bool_true in B by (rewrite Rabs_R0; apply bpow_gt_0).
  destruct B as (V & F & S). rewrite Fx, Fy in F. cbn [andb] in F.
  assert (Sx : forall z : f32, 0 < B2R z -> Bsign z = false).
  { intros [s|s| |[|] m e H] Hz; cbn in *; try lra; try reflexivity.
    pose proof (F2R_lt_0 radix2 (Float radix2 (Zneg m) e) eq_refl). lra. }
  assert (NN : is_nan (Bmult mode_NE x y) = false) by (destruct (Bmult mode_NE x y); try discriminate; reflexivity).
  specialize (S NN). rewrite (Sx x), (Sx y) in S by lra. cbn [xorb] in S.
  destruct (Bmult mode_NE x y) as [s|s| |s m e H]; try discriminate.
  - cbn in S. now subst s.
  - exfalso. cbn [B2R] in V. apply eq_0_F2R in V. destruct s; discriminate.
Qed.

Section Pool.
  Variables (exp64 : f64 -> f64).
  Lemma mixed_pool_at (D : arr2 f32) metric (rs : list f32) r data :
    pool_run Nat.eqb (fun _ => n0) (map (fun i => [(i, f64_of32 (nth i rs nnan))]) (seq 0 (nrow D))) r ->
    pool_run celleq (fun _ => n0)
        (map (ls_task_mixed exp64 metric (fill_diagonal D (ls_exclude metric)) (nrow D) r) (seq 0 (nrow D))) data ->
    forall i j, (i < nrow D)%nat -> (j < nrow D)%nat -> i <> j -> data (i, j) =
      ls_val_mixed exp64 metric (at2 D (Nat.min i j) (Nat.max i j))
        (f64_of32 (nth (Nat.min i j) rs nnan)) (f64_of32 (nth (Nat.max i j) rs nnan)).
  Proof.
    intros H1 H2 i j Hi Hj Hne. pose proof (pool_radii (fun i => f64_of32 (nth i rs nnan)) _ _ H1) as Hr. cbn beta in Hr.
    set (f := fun i j => if (j =? i)%nat then ls_self_tmp metric
        else ls_val_mixed exp64 metric (at2 (fill_diagonal D (ls_exclude metric)) i j) (r i) (r j)).
    assert (H3 : pool_run celleq (fun _ => n0) (map (mirror_task 0 (nrow D) f) (seq 0 (nrow D))) data).
    { replace (map (mirror_task 0 (nrow D) f) (seq 0 (nrow D))) with
        (map (ls_task_mixed exp64 metric (fill_diagonal D (ls_exclude metric)) (nrow D) r) (seq 0 (nrow D))); [assumption|].
      apply map_ext. intros a. unfold ls_task_mixed, mirror_task, f. now rewrite Nat.add_0_r. }
    rewrite (pool_mirror _ _ _ _ H3 i j Hi Hj).
    replace (Nat.min i j + 0 <=? Nat.max i j)%nat with true by (symmetry; apply Nat.leb_le; lia).
    unfold f. cbn [fill_diagonal at2].
    destruct (Nat.eqb_spec (Nat.max i j) (Nat.min i j)); [lia|].
    destruct (Nat.eqb_spec (Nat.min i j) (Nat.max i j)); [lia|]. now rewrite !Hr by lia.
  Qed.
End Pool.
