(** Property C151: local scaling of float32 distances (local_scaling.py:174-311). *)
From Coq Require Import String.
From Coq Require Import ZArith Reals Lra List Arith Lia Bool Permutation.
From Flocq Require Import Core BinarySingleNaN.
From Verif Require Import Py Num NumT NumF32 Arr Sort Conc S_Neighbors S_LS M_IO M_Hubness M_SNN M_LS M_LS32.
From Verif Require Import P_LS P_LS2 P_F64 P_F32 S_LSFloat P_LSFloat Properties_LS P_LS32 S_LSAcc Properties_LSFloat Properties_LSAcc.
Import ListNotations.
Local Open Scope R_scope.

(** a positive finite float32 *)
Definition pos_f32 (x : f32) : Prop := nisfin x = true /\ 0 < B2R x.

Lemma nan_add0 (v w : f32) : nisnan v = true -> maybe0 v w -> nisnan w = true.
Proof. intros H. destruct v; try discriminate. intros [E|[E|E]]; rewrite E; reflexivity. Qed.

(** ** C151, defect: distances of at most 2^-76 (about 1.3e-23) in float32 become
    NaN without a pool and 0 with a pool, whatever they are *)
Theorem C151_float32_depends_on_n_jobs :
  forall exp32 exp64 part (D : arr2 f32) n k test cpu n_jobs res,
    (forall x, nisnan x = true -> nisnan (exp32 x) = true) ->
    (forall x, neq x n0 = true -> neq (exp64 x) n1 = true) ->
    part_ok part -> nrow D = n -> ncol D = n ->
    (forall i j, (i < n)%nat -> (j < n)%nat -> i <> j -> pos_f32 (at2 D i j) /\ B2R (at2 D i j) <= bpow radix2 (-76)) ->
    (0 < k < length (training n test))%nat ->
    local_scaling32 exp32 exp64 part D (Z.of_nat k) "distance" test cpu n_jobs res ->
    (workers cpu n_jobs = 1%Z -> exists L, res = Ok (A32 L) /\
       forall i j, (i < n)%nat -> (j < n)%nat -> i <> j -> nisnan (at2 L i j) = true) /\
    ((1 < workers cpu n_jobs)%Z -> exists L, res = Ok (A64 L) /\
       forall i j, (i < n)%nat -> (j < n)%nat -> neq (at2 L i j) n0 = true).
Proof.
  intros exp32 exp64 part D n k test cpu nj res E32 E64 PO Hr Hc Hf Hk H. subst n.
  destruct (ls_radii_dist f32_cmp part D k test PO (eq_sym Hc)
     (fun i j Hi Hj Hne => proj1 (proj1 (Hf i j Hi Hj Hne))) Hk) as (rs & E & K).
  assert (Rd : forall i, (i < nrow D)%nat -> pos_f32 (nth i rs nnan) /\ B2R (nth i rs nnan) <= bpow radix2 (-76)).
  { intros i Hi. destruct (K i Hi) as (Kin & _). apply others_in in Kin. destruct Kin as (b & Hb & Hbne & ->). now apply Hf; auto. }
  assert (Z1 : forall i j, (i < nrow D)%nat -> (j < nrow D)%nat -> i <> j ->
    nmul (nofZ (-1)) (nmul (at2 D i j) (at2 D i j)) = B754_zero true).
  { intros i j Hi Hj Hne. destruct (Hf i j Hi Hj Hne) as ((F & P) & B). rewrite (mul32_tiny (at2 D i j) (at2 D i j)) by (assumption || (split; lra)). reflexivity. }
  unfold workers. destruct H as [Hj|Hj|e Hj He|rs' r data Hj Hrs H1 H2].
  - split; [intros _|lia]. destruct (ls_serial_at exp32 part D _ _ _ _ E) as (L & EL & _ & _ & HL).
    exists L. rewrite EL. split; [reflexivity|].
    assert (C : forall i j, (i < nrow D)%nat -> (j < nrow D)%nat -> i <> j ->
      nisnan (ls_cell exp32 "distance" D (fun a => nth a rs nnan) i j) = true).
    { intros i j Hi Hj' Hne. unfold ls_cell, ls_val. change (is_sim "distance") with false. cbv iota.
      rewrite Z1 by assumption. destruct (Rd i Hi) as ((F1 & P1) & B1). destruct (Rd j Hj') as ((F2 & P2) & B2).
      rewrite (mul32_tiny (nth i rs nnan) (nth j rs nnan)) by (assumption || (split; lra)).
      assert (Q : nisnan (exp32 (ndiv (B754_zero true) (B754_zero false))) = true) by (apply E32; reflexivity).
      destruct (exp32 _); try discriminate. reflexivity. }
    intros i j Hi Hj' Hne. rewrite HL by assumption. destruct (Nat.eqb_spec i j) as [|_]; [contradiction|].
    destruct (i <? j)%nat.
    + apply (nan_add0 (ls_cell exp32 "distance" D (fun a => nth a rs nnan) i j)); [now apply C|unfold maybe0; auto].
    + apply (nan_add0 (ls_cell exp32 "distance" D (fun a => nth a rs nnan) j i)); [apply C; auto|unfold maybe0; auto].
  - split; lia.
  - rewrite E in He. discriminate.
  - split; [lia|intros _]. rewrite E in Hrs. injection Hrs as <-. eexists. split; [reflexivity|].
    intros i j Hi Hj'. cbn [fill_diagonal at2]. destruct (Nat.eqb_spec i j) as [_|Hne]; [reflexivity|].
    rewrite (mixed_pool_at exp64 D _ _ _ _ H1 H2 i j Hi Hj' Hne). unfold ls_val_mixed. change (is_sim "distance") with false. cbv iota.
    set (m := Nat.min i j). set (M := Nat.max i j).
    assert (Hm : (m < nrow D)%nat) by (unfold m; lia). assert (HM : (M < nrow D)%nat) by (unfold M; lia).
    rewrite Z1 by (unfold m, M in *; lia). cbn [f64_of32].
    assert (W : forall a, (a < nrow D)%nat -> dist64 (f64_of32 (nth a rs nnan)) /\ within (-500) 500 (f64_of32 (nth a rs nnan))).
    { intros a Ha. destruct (Rd a Ha) as ((F1 & P1) & B1). destruct (f64_of32_fin _ F1) as (F & V & S).
      split; [split; [exact F|]|].
      - rewrite S. destruct (nth a rs nnan) as [s|s| |[|] m' e' Hb]; cbn in P1; try lra; try reflexivity.
        pose proof (F2R_lt_0 radix2 (Float radix2 (Zneg m') e') eq_refl). lra.
      - unfold within. rewrite V. pose proof (pos32 _ P1). split.
        + apply Rle_trans with (bpow radix2 (-149)); [apply bpow_le; lia|assumption].
        + apply Rle_trans with (1 := B1). apply bpow_le. lia. }
    destruct (W m Hm) as (D1 & W1). destruct (W M HM) as (D2 & W2).
    destruct (mul_within 500 _ _ ltac:(lia) D1 D2 W1 W2) as ((F3 & S3) & W3 & _). apply within_pos in W3.
    remember (nmul (f64_of32 (nth m rs nnan)) (f64_of32 (nth M rs nnan))) as p.
    assert (Q : ndiv (V:=f64) (B754_zero true) p = B754_zero true).
    { destruct p as [s|s| |s mp ep Hp]; try discriminate; cbn in W3; try lra. cbn in S3. now subst s. }
    rewrite Q. assert (X : neq (exp64 (B754_zero true)) n1 = true) by (apply E64; reflexivity).
    rewrite (cl_eq _ _ _ f64_cmp) in X. rewrite (cl_1 _ _ _ f64_cmp) in X.
    remember (exp64 (B754_zero true)) as e.
    assert (Fe : is_finite e = true) by (destruct e as [s|[|]| |s me ee He']; try discriminate; reflexivity).
    rewrite (f2x_fin _ Fe) in X. cbn in X. destruct (Req_EM_T (B2R e) 1) as [Ee|]; [|discriminate].
    destruct (sub1_acc e Fe ltac:(lra)) as (Fs & _).
    destruct n1_f64 as (V1 & F1).
    pose proof (Bminus_correct 53 1024 prec53 emax1024 mode_NE (n1 (V:=f64)) e F1 Fe) as B. rewrite V1, Ee in B.
    replace (1 - 1) with 0 in B by ring. rewrite round_0 in B by apply valid_rnd_round_mode.
    rewrite Rlt_bool_true in B by (rewrite Rabs_R0; apply bpow_gt_0). destruct B as (B & _).
    rewrite (cl_eq _ _ _ f64_cmp), (cl_0 _ _ _ f64_cmp). change (nsub n1 e) with (Bminus mode_NE (n1 (V:=f64)) e) in *.
    rewrite (f2x_fin _ Fs), B. cbn. destruct (Req_EM_T 0 0); [reflexivity|contradiction].
Qed.

(** converting the matrix to float64 first gives accurate values for all positive float32 distances *)
Theorem C151_float64_copy_is_accurate :
  forall vexp eps part (D : arr2 f32) n k test cpu n_jobs res,
    0 <= eps -> exp_close eps vexp -> part_ok part -> nrow D = n -> ncol D = n ->
    (forall i j, (i < n)%nat -> (j < n)%nat -> i <> j -> pos_f32 (at2 D i j)) ->
    (0 < k < length (training n test))%nat -> (1 <= workers cpu n_jobs)%Z ->
    local_scaling vexp part (Arr2 n n (fun i j => f64_of32 (at2 D i j))) (Z.of_nat k) "distance" test cpu n_jobs res ->
    exists L (r : nat -> f64), res = Ok L /\
      (forall i, (i < n)%nat -> kth_smallest (map f64_of32 (others D (training n test) i)) k (r i)) /\
      forall i j, (i < j)%nat -> (j < n)%nat ->
        Rabs (B2R (at2 L i j) - (1 - exp (- (B2R (at2 D i j) * B2R (at2 D i j)) / (B2R (r i) * B2R (r j))))) <= eps + bpow radix2 (-50).
Proof.
  intros vexp eps part D n k test cpu nj res He EC PO Hr Hc Hf Hk Hw H.
  destruct (C150_local_scaling_accuracy vexp eps part (Arr2 n n (fun i j => f64_of32 (at2 D i j))) n k test cpu nj res He EC PO eq_refl eq_refl) as (L & r & EL & K & _ & A); auto.
  - intros i j Hi Hj Hne. cbn [at2]. destruct (Hf i j Hi Hj Hne) as (F1 & P1). destruct (f64_of32_fin _ F1) as (F & V & S).
    split; [split; [exact F|]|].
    + rewrite S. destruct (at2 D i j) as [s|s| |[|] m' e' Hb]; cbn in P1; try lra; try reflexivity.
      pose proof (F2R_lt_0 radix2 (Float radix2 (Zneg m') e') eq_refl). lra.
    + unfold within. rewrite V. pose proof (pos32 _ P1). split.
      * apply Rle_trans with (bpow radix2 (-149)); [apply bpow_le; lia|assumption].
      * pose proof (abs_B2R_lt_emax _ _ (at2 D i j)) as B. rewrite Rabs_pos_eq in B by lra.
        apply Rle_trans with (bpow radix2 128); [lra|apply bpow_le; lia].
  - exists L, r. split; [exact EL|]. split.
    + intros i Hi. specialize (K i Hi). unfold others in *. rewrite map_map. cbn [at2] in K. exact K.
    + intros i j Hij Hj. destruct (A i j Hij Hj) as (A1 & _). cbn [at2] in A1.
      destruct (f64_of32_fin _ (proj1 (Hf i j ltac:(lia) Hj ltac:(lia)))) as (_ & V & _). rewrite V in A1. exact A1.
Qed.

(** three objects at distance 2^-80 from each other (the formula gives 1 - 1/e) *)
Definition tiny : f32 := B754_finite (prec:=24) (emax:=128) false 8388608 (-103) (eq_refl true).
Lemma tiny_val : B2R tiny = bpow radix2 (-80).
Proof. unfold tiny. cbn [B2R]. unfold F2R. cbn [Fnum Fexp cond_Zopp]. change (IZR 8388608) with (bpow radix2 23). rewrite <- bpow_plus. reflexivity. Qed.
Definition tiny32 : arr2 f32 := Arr2 3 3 (fun i j => if (i =? j)%nat then n0 else tiny).
Example C151_case :
  (forall i j, (i < 3)%nat -> (j < 3)%nat -> i <> j -> pos_f32 (at2 tiny32 i j) /\ B2R (at2 tiny32 i j) <= bpow radix2 (-76)) /\
  (exists L, local_scaling32 (fun x => if nisnan x then x else n1) (fun _ => n1) ref_part tiny32 1 "distance" None 4 1 (Ok (A32 L)) /\
     nisnan (at2 L 0 1) = true) /\
  nisnan (ls_val_mixed (fun _ => n1) "distance" (at2 tiny32 0 1) (f64_of32 (at2 tiny32 0 1)) (f64_of32 (at2 tiny32 0 2))) = false /\
  (0 < 1 < length (training 3 None))%nat.
Proof.
  split; [|split; [|split; [vm_compute; reflexivity|cbn; lia]]].
  - intros i j _ _ Hne. unfold tiny32. cbn [at2]. apply Nat.eqb_neq in Hne. rewrite Hne.
    split; [split; [vm_compute; reflexivity|]|]; rewrite tiny_val; [apply bpow_gt_0|apply bpow_le; lia].
  - assert (C : match local_scaling_serial (fun x : f32 => if nisnan x then x else n1) ref_part tiny32 1 "distance" None with
                | Ok L => nisnan (at2 L 0 1) | Raise _ => false end = true) by (vm_compute; reflexivity).
    pose proof (l32_one (fun x : f32 => if nisnan x then x else n1) (fun _ => n1) ref_part tiny32 1 "distance" None 4 1 eq_refl) as H.
    destruct (local_scaling_serial _ ref_part tiny32 1 "distance" None) as [L|e]; [|discriminate].
    exists L. split; [exact H|exact C].
Qed.
Print Assumptions C151_float32_depends_on_n_jobs.
Print Assumptions C151_float64_copy_is_accurate.
