(** Skewness: bounds, symmetry, invariance. *)
From Coq Require Import String.
From Coq Require Import ZArith List Arith Lia Bool Permutation Reals Lra Psatz.
From Verif Require Import M_Hubness.
Import ListNotations.
Local Open Scope R_scope.

Lemma sumR_app l l' : sumR (l ++ l') = sumR l + sumR l'.
Proof. unfold sumR. induction l as [|x l IH]; cbn; [ring|]. rewrite IH. ring. Qed.
Lemma sumR_perm l l' : Permutation l l' -> sumR l = sumR l'.
Proof. induction 1; unfold sumR in *; cbn; lra. Qed.
Lemma sumR_map_plus {A} (f g : A -> R) l : sumR (map (fun x => f x + g x) l) = sumR (map f l) + sumR (map g l).
Proof. induction l as [|x l IH]; unfold sumR in *; cbn; [lra|]. rewrite IH. lra. Qed.
Lemma sumR_map_mult {A} c (f : A -> R) l : sumR (map (fun x => c * f x) l) = c * sumR (map f l).
Proof. induction l as [|x l IH]; unfold sumR in *; cbn; [lra|]. rewrite IH. lra. Qed.
Lemma sumR_map_const {A} c (l : list A) : sumR (map (fun _ => c) l) = INR (length l) * c.
Proof. induction l as [|x l IH]; [cbn; lra|]. cbn [map length]. rewrite S_INR. unfold sumR in *. cbn [fold_right]. rewrite IH. lra. Qed.
Lemma sumR_map_ext {A} (f g : A -> R) l : (forall x, In x l -> f x = g x) -> sumR (map f l) = sumR (map g l).
Proof. intros H. f_equal. now apply map_ext_in. Qed.
Lemma sumR_nonneg {A} (f : A -> R) l : (forall x, In x l -> 0 <= f x) -> 0 <= sumR (map f l).
Proof.
  intros H. induction l as [|x l IH]; unfold sumR in *; cbn; [lra|].
  pose proof (H x (or_introl eq_refl)). specialize (IH (fun y Hy => H y (or_intror Hy))). lra.
Qed.
Lemma sumR_in_le {A} (f : A -> R) l y : (forall x, In x l -> 0 <= f x) -> In y l -> f y <= sumR (map f l).
Proof.
  intros H Hy. destruct (in_split y l Hy) as (l1 & l2 & ->). rewrite map_app. cbn [map]. rewrite sumR_app.
  change (sumR (f y :: map f l2)) with (f y + sumR (map f l2)).
  assert (0 <= sumR (map f l1)) by (apply sumR_nonneg; intros; apply H; apply in_or_app; now left).
  assert (0 <= sumR (map f l2)) by (apply sumR_nonneg; intros; apply H; apply in_or_app; right; now right). lra.
Qed.
Lemma sumR_id l : sumR (map (fun x => x) l) = sumR l. Proof. now rewrite map_id. Qed.

Lemma INR_pos (l : list R) : l <> [] -> 0 < INR (length l).
Proof. intros H. apply lt_0_INR. destruct l; [congruence|cbn; lia]. Qed.
Lemma dev_sum l : l <> [] -> sumR (map (fun x => x - meanR l) l) = 0.
Proof.
  intros H. apply INR_pos in H. rewrite (sumR_map_ext _ (fun x => x + (- meanR l))) by (intros; lra).
  rewrite sumR_map_plus, sumR_id, sumR_map_const. unfold meanR. field. lra.
Qed.
Lemma cmoment2_nonneg l : 0 <= cmoment 2 l.
Proof.
  unfold cmoment, meanR. destruct l as [|x l]; [cbn; unfold Rdiv; lra|].
  apply Rmult_le_pos; [apply sumR_nonneg; intros; apply pow2_ge_0|]. left. apply Rinv_0_lt_compat. rewrite map_length. apply INR_pos. discriminate.
Qed.
Lemma cmoment2_zero l : cmoment 2 l = 0 -> forall x, In x l -> x = meanR l.
Proof.
  intros H x Hx. assert (Hl : l <> []) by (intros ->; destruct Hx). pose proof (INR_pos l Hl) as P.
  unfold cmoment in H. unfold meanR at 1 in H. rewrite map_length in H.
  assert (S0 : sumR (map (fun x => (x - meanR l) ^ 2) l) = 0).
  { apply (Rmult_eq_reg_r (/ INR (length l))); [unfold Rdiv in H; lra|]. apply Rinv_neq_0_compat. lra. }
  pose proof (sumR_in_le (fun x => (x - meanR l) ^ 2) l x) as Q. cbv beta in Q. rewrite S0 in Q.
  specialize (Q ltac:(intros; apply pow2_ge_0) Hx). pose proof (pow2_ge_0 (x - meanR l)). assert (E : (x - meanR l) ^ 2 = 0) by lra.
  cbn in E. rewrite Rmult_1_r in E. apply Rmult_integral in E. lra.
Qed.

(** the deviations of n values are at most sqrt(n-1) standard deviations *)
Lemma deviation_bound (l : list R) y : sumR l = 0 -> In y l -> (2 <= length l)%nat ->
  y * y * INR (length l) <= (INR (length l) - 1) * sumR (map (fun x => x * x) l).
Proof.
  intros S0 Hy Hn. set (n := INR (length l)). assert (N2 : 2 <= n) by (apply (le_INR 2); exact Hn).
  set (c := y / (n - 1)).
  pose proof (sumR_in_le (fun x => (x + c) * (x + c)) l y ltac:(intros x Hx; exact (Rle_0_sqr (x + c))) Hy) as Q. cbv beta in Q.
  rewrite (sumR_map_ext _ (fun x => x * x + (2 * c * x + c * c))) in Q by (intros; ring).
  rewrite sumR_map_plus, sumR_map_plus, sumR_map_const, sumR_map_mult, sumR_id, S0 in Q. fold n in Q.
  assert (E : c * (n - 1) = y) by (unfold c; field; lra). clearbody c. subst y.
  set (q := sumR (map (fun x => x * x) l)) in *. nra.
Qed.
Lemma third_bound (l : list R) s v : sumR l = 0 -> (2 <= length l)%nat -> 0 < s -> s * s = INR (length l) - 1 ->
  0 < v -> INR (length l) * (v * v) = sumR (map (fun x => x * x) l) ->
  sumR (map (fun x => x ^ 3) l) <= INR (length l) * (v * v * v) * ((INR (length l) - 2) / s).
Proof.
  intros S0 Hn Hs Es Hv Ev. set (n := INR (length l)) in *. assert (N2 : 2 <= n) by (apply (le_INR 2); exact Hn).
  assert (B : forall y, In y l -> y <= s * v).
  { intros y Hy. pose proof (deviation_bound l y S0 Hy Hn) as Q. fold n in Q. rewrite <- Ev in Q.
    assert (y * y <= (s * v) * (s * v)) by (replace ((s * v) * (s * v)) with ((s * s) * (v * v)) by ring; rewrite Es; nra).
    assert (0 < s * v) by nra. nra. }
  assert (P : 0 <= sumR (map (fun y => (s * v - y) * ((s * y + v) * (s * y + v))) l)).
  { apply sumR_nonneg. intros y Hy. specialize (B y Hy). apply Rmult_le_pos; [lra|exact (Rle_0_sqr (s * y + v))]. }
  rewrite (sumR_map_ext _ (fun y => (- (s * s)) * y ^ 3 + ((s * s * s * v - 2 * s * v) * (y * y) + ((2 * (s * s) * (v * v) - v * v) * y + s * v * (v * v))))) in P
    by (intros; ring).
  rewrite !sumR_map_plus, !sumR_map_mult, sumR_map_const, sumR_id, S0, <- Ev in P. fold n in P.
  set (T := sumR (map (fun y => y ^ 3) l)) in *. clearbody T.
  replace (n - 2) with (s * s - 1) by lra.
  apply (Rmult_le_reg_l (s * s)); [nra|].
  replace (s * s * (n * (v * v * v) * ((s * s - 1) / s))) with (n * (v * v * v) * ((s * s - 1) * s)) by (field; lra).
  nra.
Qed.

Lemma meanR_opp l : meanR (map Ropp l) = - meanR l.
Proof.
  unfold meanR. rewrite map_length. rewrite (map_ext Ropp (fun x => (-1) * x)) by (intros; ring).
  rewrite sumR_map_mult, sumR_id. unfold Rdiv. ring.
Qed.
Lemma cmoment_opp p l : cmoment p (map Ropp l) = (-1) ^ p * cmoment p l.
Proof.
  unfold cmoment. rewrite map_map, meanR_opp. unfold meanR at 1 3. rewrite !map_length.
  rewrite (map_ext (fun x => (- x - - meanR l) ^ p) (fun x => (-1) ^ p * (x - meanR l) ^ p)).
  - rewrite sumR_map_mult. unfold Rdiv. ring.
  - intros x. rewrite <- Rpow_mult_distr. f_equal. ring.
Qed.
Lemma skew_opp l : skewR (map Ropp l) = - skewR l.
Proof.
  unfold skewR. rewrite !cmoment_opp. replace ((-1) ^ 2 * cmoment 2 l) with (cmoment 2 l) by ring.
  destruct (Req_EM_T (cmoment 2 l) 0); [lra|]. unfold Rdiv. ring.
Qed.
Lemma meanR_shift c l : l <> [] -> meanR (map (fun x => x + c) l) = meanR l + c.
Proof.
  intros H. apply INR_pos in H. unfold meanR. rewrite map_length, sumR_map_plus, sumR_id, sumR_map_const. field. lra.
Qed.
Lemma cmoment_shift p c l : cmoment p (map (fun x => x + c) l) = cmoment p l.
Proof.
  destruct l as [|x l]; [reflexivity|]. unfold cmoment. rewrite map_map, meanR_shift by discriminate. unfold meanR at 1 3. rewrite !map_length.
  f_equal. f_equal. apply map_ext. intros y. f_equal. ring.
Qed.
Lemma skew_shift c l : skewR (map (fun x => x + c) l) = skewR l.
Proof. unfold skewR. now rewrite !cmoment_shift. Qed.
Lemma meanR_perm l l' : Permutation l l' -> meanR l = meanR l'.
Proof. intros H. unfold meanR. now rewrite (sumR_perm _ _ H), (Permutation_length H). Qed.
Lemma cmoment_perm p l l' : Permutation l l' -> cmoment p l = cmoment p l'.
Proof. intros H. unfold cmoment. rewrite (meanR_perm _ _ H). apply meanR_perm. now apply Permutation_map. Qed.
Lemma skew_perm l l' : Permutation l l' -> skewR l = skewR l'.
Proof. intros H. unfold skewR. now rewrite !(cmoment_perm _ _ _ H). Qed.

Lemma skew_upper l : (2 <= length l)%nat -> skewR l <= (INR (length l) - 2) / sqrt (INR (length l) - 1).
Proof.
  intros Hn. assert (N2 : 2 <= INR (length l)) by (apply (le_INR 2); exact Hn). set (n := INR (length l)) in *.
  assert (Hs : 0 < sqrt (n - 1)) by (apply sqrt_lt_R0; lra). assert (Es : sqrt (n - 1) * sqrt (n - 1) = n - 1) by (apply sqrt_sqrt; lra).
  set (s := sqrt (n - 1)) in *. unfold skewR. destruct (Req_EM_T (cmoment 2 l) 0) as [_|H2].
  { apply Rmult_le_pos; [lra|]. left. now apply Rinv_0_lt_compat. }
  pose proof (cmoment2_nonneg l) as P2. assert (P2' : 0 < cmoment 2 l) by lra.
  assert (Hv : 0 < sqrt (cmoment 2 l)) by now apply sqrt_lt_R0.
  assert (Ev : sqrt (cmoment 2 l) * sqrt (cmoment 2 l) = cmoment 2 l) by (apply sqrt_sqrt; lra).
  set (v := sqrt (cmoment 2 l)) in *.
  assert (Hl : l <> []) by (intros ->; cbn in Hn; lia).
  pose proof (third_bound (map (fun x => x - meanR l) l) s v (dev_sum l Hl)) as B. rewrite !map_length, !map_map in B. fold n in B.
  specialize (B Hn Hs Es Hv).
  assert (Q2 : n * cmoment 2 l = sumR (map (fun x => (x - meanR l) * (x - meanR l)) l)).
  { unfold cmoment. unfold meanR at 1. rewrite map_length. fold n. rewrite (sumR_map_ext _ (fun x => (x - meanR l) * (x - meanR l))) by (intros; ring). field. lra. }
  rewrite Ev, Q2 in B. specialize (B eq_refl).
  assert (Q3 : cmoment 3 l = sumR (map (fun x => (x - meanR l) ^ 3) l) / n) by (unfold cmoment; unfold meanR at 1; now rewrite map_length).
  rewrite Q3. rewrite <- Ev at 1. apply (Rmult_le_reg_r (n * (v * v * v))).
  { assert (0 < v * v * v) by (apply Rmult_lt_0_compat; [apply Rmult_lt_0_compat|]; lra). apply Rmult_lt_0_compat; lra. }
  replace (sumR (map (fun x => (x - meanR l) ^ 3) l) / n / (v * v * v) * (n * (v * v * v)))
    with (sumR (map (fun x => (x - meanR l) ^ 3) l)) by (field; lra).
  rewrite Ev in *. lra.
Qed.
Lemma skew_bound l : (2 <= length l)%nat -> Rabs (skewR l) <= (INR (length l) - 2) / sqrt (INR (length l) - 1).
Proof.
  intros H. apply Rabs_le. split; [|now apply skew_upper].
  pose proof (skew_upper (map Ropp l)) as U. rewrite map_length, skew_opp in U. specialize (U H). lra.
Qed.
Lemma skew_const c n : skewR (repeat c n) = 0.
Proof.
  unfold skewR. destruct (Req_EM_T (cmoment 2 (repeat c n)) 0) as [|H]; [reflexivity|]. exfalso. apply H.
  assert (M : n <> 0%nat -> meanR (repeat c n) = c).
  { intros Hn. unfold meanR. rewrite repeat_length. replace (sumR (repeat c n)) with (INR n * c).
    - field. now apply not_0_INR.
    - clear. induction n; [cbn; lra|]. rewrite S_INR. cbn. unfold sumR in IHn. lra. }
  unfold cmoment. unfold meanR at 1. destruct n as [|n]; [cbn; lra|].
  rewrite (sumR_map_ext _ (fun _ => 0)).
  - rewrite sumR_map_const. unfold Rdiv. ring.
  - intros x Hx. apply repeat_spec in Hx as ->. rewrite M by discriminate. ring.
Qed.
