(** The truncated normal measure. *)
From Coq Require Import ZArith List Arith Lia Bool Permutation Reals Lra Psatz.
From Coquelicot Require Import Coquelicot.
From Verif Require Import Py Num NumT Arr M_Hubness M_HubnessClass M_Skew S_Skew P_Skew.
Import ListNotations.
Local Open Scope R_scope.

Lemma bell_cont z : continuous bell z.
Proof. apply (ex_derive_continuous bell). unfold bell. auto_derive. trivial. Qed.
Lemma bell_pos z : 0 < bell z. Proof. apply exp_pos. Qed.
Lemma bell_int a b : a < b -> 0 < RInt bell a b.
Proof.
  intros H. apply RInt_gt_0; [exact H| |].
  - intros z _. apply bell_pos.
  - intros z _. apply bell_cont.
Qed.
Definition prim (z : R) : R := - (z * z + 2) * bell z.
Lemma third_int a b : RInt (fun z => z ^ 3 * bell z) a b = prim b - prim a.
Proof.
  apply is_RInt_unique. apply (is_RInt_derive prim (fun z => z ^ 3 * bell z)).
  - intros z _. unfold prim, bell. auto_derive; [trivial|]. unfold Rdiv. generalize (exp (- (z * z * / 2))). intros e. field.
  - intros z _. apply (ex_derive_continuous (fun z => z ^ 3 * bell z)). unfold bell. auto_derive. trivial.
Qed.
(** (t+2) e^(-t/2) decreases *)
Lemma prim_sq t u : 0 <= t -> t < u -> (u + 2) * exp (- (u / 2)) < (t + 2) * exp (- (t / 2)).
Proof.
  intros Ht Hu. set (d := u - t). assert (Hd : 0 < d) by (unfold d; lra).
  replace (- (u / 2)) with (- (t / 2) + - (d / 2)) by (unfold d; field). rewrite exp_plus.
  assert (E : exp (- (d / 2)) * exp (d / 2) = 1) by (rewrite <- exp_plus; replace (- (d / 2) + d / 2) with 0 by ring; apply exp_0).
  pose proof (exp_ineq1 (d / 2) ltac:(lra)) as Q. pose proof (exp_pos (- (d / 2))) as P1. pose proof (exp_pos (- (t / 2))) as P2.
  replace (u + 2) with (t + 2 + d) by (unfold d; ring).
  apply Rmult_lt_reg_r with (exp (d / 2)); [apply exp_pos|].
  replace ((t + 2 + d) * (exp (- (t / 2)) * exp (- (d / 2))) * exp (d / 2)) with ((t + 2 + d) * exp (- (t / 2)) * (exp (- (d / 2)) * exp (d / 2))) by ring.
  rewrite E, Rmult_1_r. replace ((t + 2) * exp (- (t / 2)) * exp (d / 2)) with ((t + 2) * exp (d / 2) * exp (- (t / 2))) by ring.
  apply Rmult_lt_compat_r; [exact P2|]. nra.
Qed.
Lemma third_pos a b : a < b -> a * a < b * b -> 0 < truncated_third_moment a b.
Proof.
  intros H H2. unfold truncated_third_moment. apply Rdiv_lt_0_compat; [|now apply bell_int].
  rewrite third_int. unfold prim, bell. pose proof (prim_sq (a * a) (b * b) ltac:(nra) H2). lra.
Qed.

(** *** mean and standard deviation of integers in exact arithmetic *)
Lemma sumZ_cons x l : sumZ (x :: l) = (x + sumZ l)%Z.
Proof.
  unfold sumZ. cbn. assert (G : forall l a, fold_left Z.add l a = (a + fold_left Z.add l 0)%Z).
  { clear. induction l as [|y l IH]; intros a; cbn; [lia|]. rewrite IH, (IH y). lia. } rewrite G. lia.
Qed.
Lemma sumZ_IZR l : IZR (sumZ l) = sumR (map IZR l).
Proof. induction l as [|x l IH]; [reflexivity|]. rewrite sumZ_cons, plus_IZR, IH. reflexivity. Qed.
Lemma zmean_xr l : l <> [] -> zmean (V:=xr) l = XFin (meanR (map IZR l)).
Proof.
  intros H. unfold zmean, meanR. rewrite map_length, <- sumZ_IZR, INR_IZR_INZ.
  assert (P : IZR (Z.of_nat (length l)) <> 0) by (apply IZR_neq; destruct l; [congruence|cbn; lia]).
  cbn. destruct (Req_EM_T (IZR (Z.of_nat (length l))) 0); [contradiction|reflexivity].
Qed.
Definition stdR (l : list R) : R := sqrt (sumR (map (fun x => (x - meanR l) * (x - meanR l)) l) / (INR (length l) - 1)).
Lemma zstd1_xr l : (2 <= length l)%nat -> zstd1 xsum l = XFin (stdR (map IZR l)).
Proof.
  intros H. assert (Hl : l <> []) by (intros ->; cbn in H; lia). unfold zstd1, stdR. rewrite zmean_xr by exact Hl.
  set (m := meanR (map IZR l)). rewrite map_map, map_length, INR_IZR_INZ, <- minus_IZR.
  replace (map (fun x => let d := nsub (nofZ x) (XFin m) in nmul d d) l) with (map XFin (map (fun x => (IZR x - m) * (IZR x - m)) l))
    by (rewrite map_map; reflexivity).
  rewrite xsum_fin. change (rsum (map (fun x => (IZR x - m) * (IZR x - m)) l)) with (sumR (map (fun x => (IZR x - m) * (IZR x - m)) l)).
  assert (P : 0 < IZR (Z.of_nat (length l) - 1)) by (apply IZR_lt; lia).
  assert (Q : 0 <= sumR (map (fun x => (IZR x - m) * (IZR x - m)) l)) by (apply sumR_nonneg; intros; exact (Rle_0_sqr (IZR x - m))).
  cbn. destruct (Req_EM_T (IZR (Z.of_nat (length l) - 1)) 0); [lra|]. cbn.
  destruct (Rlt_dec (sumR (map (fun x => (IZR x - m) * (IZR x - m)) l) / IZR (Z.of_nat (length l) - 1)) 0) as [A|A]; [|reflexivity].
  exfalso. apply (Rlt_not_le _ _ A). apply Rmult_le_pos; [exact Q|]. left. now apply Rinv_0_lt_compat.
Qed.
Lemma sq_dev l : l <> [] -> sumR (map (fun x => (x - meanR l) * (x - meanR l)) l) =
  sumR (map (fun x => x * x) l) - sumR l * sumR l / INR (length l).
Proof.
  intros H. pose proof (INR_pos l H) as P. set (m := meanR l).
  rewrite (sumR_map_ext _ (fun x => x * x + ((- 2 * m) * x + m * m))) by (intros; ring).
  rewrite sumR_map_plus, sumR_map_plus, sumR_map_mult, sumR_map_const, sumR_id. unfold m, meanR. field. lra.
Qed.
