(** matrix_split in float64 computes the exact integer result. *)
From Coq Require Import String Ascii.
From Coq Require Import ZArith Reals Lra Lia Bool List Arith.
From Flocq Require Import Core BinarySingleNaN.
From Verif Require Import Py Num Arr P_F64 P_Mem M_IO M_Text.
Local Open Scope R_scope.

Lemma f64_ceil_Z (x : f64) : f64_ceil x = Zceil (B2R x).
Proof.
  unfold f64_ceil, Zceil. rewrite Btrunc_Z. f_equal.
  destruct (Bnearbyint_correct 53 1024 emax1024 mode_DN (nopp x)) as (E & _). rewrite E.
  cbn [nopp Num_f64]. rewrite B2R_Bopp.
  unfold round, scaled_mantissa, cexp, FIX_exp, F2R. cbn [Fnum Fexp Z.opp bpow round_mode]. rewrite !Rmult_1_r.
  apply Ztrunc_IZR.
Qed.
Lemma f64_int_floor (x : f64) : 0 <= B2R x -> f64_int x = Zfloor (B2R x).
Proof. intros H. unfold f64_int. rewrite Btrunc_Z. now apply Ztrunc_floor. Qed.

Lemma mul1024 z : (0 <= 1024 * z <= 2 ^ 51)%Z ->
  B2R (nmul (nofZ 1024) (nofZ z) : f64) = IZR (1024 * z) /\ is_finite (nmul (nofZ 1024) (nofZ z) : f64) = true.
Proof.
  intros H. destruct (ofZ_nonneg 1024 ltac:(lia)) as (E1 & F1 & _). destruct (ofZ_nonneg z ltac:(lia)) as (E2 & F2 & _).
  pose proof (Bmult_correct 53 1024 prec53 emax1024 mode_NE (f64_ofZ 1024) (f64_ofZ z)) as M.
  rewrite E1, E2, <- mult_IZR in M. fold (rnd (IZR (1024 * z))) in M. rewrite rnd_Z in M by lia.
  rewrite Rlt_bool_true in M.
  - destruct M as (M1 & M2 & _). rewrite F1, F2 in M2. split; assumption.
  - rewrite <- abs_IZR. apply Rle_lt_trans with (bpow radix2 53); [apply b53; lia|apply bpow_lt; reflexivity].
Qed.
Lemma nofnat_R (n : nat) : (Z.of_nat n <= 2 ^ 53)%Z ->
  B2R (nofnat n : f64) = IZR (Z.of_nat n) /\ is_finite (nofnat n : f64) = true /\ 0 <= B2R (nofnat n : f64) <= bpow radix2 55.
Proof. intros H. apply ofZ_nonneg. lia. Qed.

Lemma divZ (a b : nat) : Z.of_nat (a / b) = (Z.of_nat a / Z.of_nat b)%Z.
Proof. apply Nat2Z.inj_div. Qed.

Lemma matrix_split_exact s m rows cols el nr :
  read_meminfo s = Ok m ->
  (0 <= 1024 * (mi_free m + mi_buff m + mi_cached m) <= 2 ^ 51)%Z ->
  (Z.of_nat rows <= 2 ^ 51 /\ Z.of_nat cols <= 2 ^ 53 /\ Z.of_nat el <= 2 ^ 53 /\ Z.of_nat nr <= 2 ^ 53)%Z ->
  matrix_split_f64 s rows cols el nr =
  match matrix_split (Z.to_nat (1024 * (mi_free m + mi_buff m + mi_cached m))) rows cols el nr with
  | Ok (b, r) => Ok (Z.of_nat b, Z.of_nat r)
  | Raise e => Raise e
  end.
Proof.
  intros Hm Hf (Hr & Hc & He & Hn). unfold matrix_split_f64, FreeMemLinux, matrix_split. rewrite Hm. cbn [bind].
  replace (mem_factor (V:=f64) "k" (mi_tot m)) with (Ok (nofZ 1024 : f64)) by reflexivity. cbn [bind].
  unfold fm_user_free. cbn [fm_convert fm_info].
  set (z := (mi_free m + mi_buff m + mi_cached m)%Z) in *.
  destruct (mul1024 z Hf) as (Ef & Ff).
  destruct (cols =? 0)%nat eqn:Ec; [reflexivity|]. destruct (el =? 0)%nat eqn:Ee; [reflexivity|].
  apply Nat.eqb_neq in Ec, Ee. cbn [orb guard bind].
  destruct (nr =? 0)%nat eqn:En; [reflexivity|]. apply Nat.eqb_neq in En. cbn [guard bind].
  destruct (nofnat_R cols Hc) as (C1 & C2 & _). destruct (nofnat_R el He) as (E1 & E2 & _). destruct (nofnat_R nr Hn) as (N1 & N2 & _).
  destruct (nofnat_R rows ltac:(lia)) as (R1 & R2 & R3).
  assert (Ic : 1 <= IZR (Z.of_nat cols)) by (apply IZR_le; lia).
  assert (Ie : 1 <= IZR (Z.of_nat el)) by (apply IZR_le; lia).
  assert (In' : 1 <= IZR (Z.of_nat nr)) by (apply IZR_le; lia).
  assert (B : bpow radix2 53 <= bpow radix2 55) by (apply bpow_le; lia).
  destruct (div_f64 (nmul (nofZ 1024) (nofZ z)) (nofnat cols) Ff C2) as (D1 & D2 & D3).
  { rewrite Ef. split; [apply IZR_le; lia|]. apply Rle_trans with (2 := B). apply b53. lia. }
  { now rewrite C1. }
  destruct (div_f64 (ndiv (nmul (nofZ 1024) (nofZ z)) (nofnat cols)) (nofnat el) D2 E2 D3) as (G1 & G2 & G3); [now rewrite E1|].
  assert (X : f64_int (ndiv (ndiv (nmul (nofZ 1024) (nofZ z)) (nofnat cols)) (nofnat el)) = Z.of_nat (Z.to_nat (1024 * z) / cols / el)).
  { rewrite f64_int_floor by apply G3. rewrite G1, D1, Ef, C1, E1, floor_quot by lia.
    rewrite Nat.div_div by lia. rewrite divZ, Nat2Z.inj_mul, Z2Nat.id by lia. reflexivity. }
  rewrite X. set (mx := (Z.to_nat (1024 * z) / cols / el)%nat) in *.
  assert (Mx : (Z.of_nat mx <= 2 ^ 51)%Z).
  { unfold mx. rewrite Nat.div_div by lia. rewrite divZ, Nat2Z.inj_mul, Z2Nat.id by lia.
    apply Z.le_trans with (1024 * z)%Z; [|lia].
    assert (W : (1 <= Z.of_nat cols * Z.of_nat el)%Z) by nia. apply Z.div_le_upper_bound; [lia|]. set (w := (Z.of_nat cols * Z.of_nat el)%Z) in *. nia. }
  destruct (ofZ_nonneg (Z.of_nat mx) ltac:(lia)) as (M1 & M2 & M3).
  destruct (div_f64 (f64_ofZ (Z.of_nat mx)) (nofnat nr) M2 N2 M3) as (P1 & P2 & P3); [now rewrite N1|].
  assert (Y : f64_int (ndiv (nofZ (Z.of_nat mx)) (nofnat nr)) = Z.of_nat (mx / nr)).
  { change (nofZ (Z.of_nat mx)) with (f64_ofZ (Z.of_nat mx)). rewrite f64_int_floor by apply P3.
    rewrite P1, M1, N1, floor_quot1 by lia. now rewrite divZ. }
  rewrite Y. set (q := (mx / nr)%nat) in *.
  assert (Mq : (Z.of_nat q <= 2 ^ 51)%Z).
  { unfold q. rewrite divZ. apply Z.le_trans with (Z.of_nat mx); [|lia]. apply Z.div_le_upper_bound; nia. }
  destruct (q =? 0)%nat eqn:Eq.
  { apply Nat.eqb_eq in Eq. rewrite Eq. reflexivity. }
  apply Nat.eqb_neq in Eq. replace (Z.of_nat q =? 0)%Z with false by (symmetry; apply Z.eqb_neq; lia). cbn [guard bind].
  do 2 f_equal.
  destruct (ofZ_nonneg (Z.of_nat q) ltac:(lia)) as (Q1 & Q2 & _).
  destruct (div_f64 (nofnat rows) (f64_ofZ (Z.of_nat q)) R2 Q2 R3) as (S1 & _); [rewrite Q1; apply IZR_le; lia|].
  change (nofZ (Z.of_nat q)) with (f64_ofZ (Z.of_nat q)). rewrite f64_ceil_Z, S1, R1, Q1, ceil_quot by lia.
  rewrite divZ, Nat2Z.inj_sub, Nat2Z.inj_add by lia. reflexivity.
Qed.
