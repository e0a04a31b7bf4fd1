(** The Hoover and Atkinson indices over the exact numbers. *)
From Coq Require Import String.
From Coq Require Import ZArith List Arith Lia Bool Reals Lra Permutation.
From Verif Require Import Py Num NumT NumPow Arr Sort Conc M_Hubness M_Dist M_KNN M_HubnessClass P_HubnessClass.
Import ListNotations.
Local Open Scope R_scope.

Definition rmean (l : list R) : R := rsum l / INR (length l).
Definition rl (l : list Z) : list R := map IZR l.

Lemma rsum_rl l : rsum (rl l) = IZR (sumZ l).
Proof.
  induction l as [|x l IH]; [reflexivity|]. rewrite sumZ_cons, plus_IZR, <- IH. reflexivity.
Qed.

Lemma xsum_ext {A} (f : A -> xr) (g : A -> R) l : (forall x, In x l -> f x = XFin (g x)) ->
  xsum (map f l) = XFin (rsum (map g l)).
Proof.
  intros H. rewrite <- xsum_fin, map_map. f_equal. now apply map_ext_in.
Qed.

Lemma xdiv_fin a b : b <> 0 -> ndiv (XFin a) (XFin b) = XFin (a / b).
Proof. intros H. cbn. unfold xdiv. destruct (Req_EM_T b 0); [contradiction|reflexivity]. Qed.

Lemma rsum_le {A} (f g : A -> R) l : (forall x, In x l -> f x <= g x) -> rsum (map f l) <= rsum (map g l).
Proof.
  induction l as [|x l IH]; intros H; cbn; [lra|].
  pose proof (H x (or_introl eq_refl)). specialize (IH (fun y Hy => H y (or_intror Hy))).
  unfold rsum in IH. lra.
Qed.
Lemma rsum_in_le l x : (forall y, In y l -> 0 <= y) -> In x l -> x <= rsum l.
Proof.
  induction l as [|y l IH]; intros H Hx; [destruct Hx|destruct Hx as [->|Hin]].
  - cbn. pose proof (rsum_nonneg l (fun z Hz => H z (or_intror Hz))). unfold rsum in *. lra.
  - cbn. specialize (IH (fun z Hz => H z (or_intror Hz)) Hin).
    pose proof (H y (or_introl eq_refl)). unfold rsum in *. lra.
Qed.

Section L.
  Variable l : list R.
  Hypothesis nonneg : forall x, In x l -> 0 <= x.
  Hypothesis pos : 0 < rsum l.
  Let n := INR (length l).
  Let mu := rmean l.

  Lemma len_pos : 0 < n.
  Proof.
    unfold n. apply lt_0_INR. destruct l as [|x l']; [|cbn; lia].
    exfalso. cbn in pos. lra.
  Qed.
  Lemma mu_pos : 0 < mu.
  Proof. unfold mu, rmean. apply Rdiv_lt_0_compat; [assumption|apply len_pos]. Qed.
  Lemma n_mu : n * mu = rsum l.
  Proof. unfold mu, rmean, n. field. pose proof len_pos. unfold n in *. lra. Qed.

  (** sum of the deviations from the mean *)
  Lemma dev_bound : rsum (map (fun x => Rabs (x - mu)) l) <= 2 * (1 - / n) * rsum l.
  Proof.
    pose proof len_pos as Hn. pose proof mu_pos as Hm. pose proof n_mu as Hs.
    apply Rle_trans with (rsum (map (fun x => mu + (1 - 2 * / n) * x) l)).
    - apply rsum_le. intros x Hx. pose proof (nonneg x Hx) as H0.
      pose proof (rsum_in_le l x nonneg Hx) as HS.
      assert (Hi : 0 < / n) by (now apply Rinv_0_lt_compat).
      assert (Hx1 : / n * x <= mu).
      { replace mu with (/ n * rsum l) by (rewrite <- Hs; field; lra). apply Rmult_le_compat_l; lra. }
      assert (Hn1 : / n <= 1).
      { rewrite <- Rinv_1. apply Rinv_le_contravar; [lra|]. unfold n. apply (le_INR 1).
        assert (length l <> 0)%nat by (intros E; unfold n in Hn; rewrite E in Hn; cbn in Hn; lra). lia. }
      assert (0 <= / n * x) by (apply Rmult_le_pos; lra).
      assert (/ n * x <= x) by (replace x with (1 * x) at 2 by ring; apply Rmult_le_compat_r; lra).
      unfold Rabs. destruct (Rcase_abs (x - mu)); lra.
    - rewrite (rsum_plus (fun _ => mu) (fun x => (1 - 2 * / n) * x) l), rsum_const, rsum_mult, map_id.
      fold n. rewrite Hs. apply Req_le. field. lra.
  Qed.

  Lemma dev_zero : rsum (map (fun x => Rabs (x - mu)) l) = 0 <-> (forall x y, In x l -> In y l -> x = y).
  Proof.
    split.
    - intros H x y Hx Hy.
      assert (G : forall z, In z l -> z = mu).
      { intros z Hz. assert (Rabs (z - mu) <= 0).
        { rewrite <- H. apply rsum_in_le; [|apply in_map_iff; eauto].
          intros w Hw. apply in_map_iff in Hw as (v & <- & _). apply Rabs_pos. }
        unfold Rabs in H0. destruct (Rcase_abs (z - mu)); lra. }
      rewrite (G x Hx), (G y Hy). reflexivity.
    - intros H. assert (E : forall x, In x l -> x = mu).
      { intros x Hx. unfold mu, rmean.
        assert (rsum l = INR (length l) * x).
        { rewrite <- (rsum_const x l). rewrite <- (map_id l) at 1. apply rsum_ext. intros y Hy. now apply H. }
        pose proof len_pos. unfold n in *. rewrite H0. field. lra. }
      rewrite (rsum_ext _ (fun _ => 0)); [rewrite rsum_const; ring|].
      intros x Hx. rewrite (E x Hx) at 1. rewrite Rminus_diag_eq, Rabs_R0 by reflexivity. reflexivity.
  Qed.

  (** x^e for x >= 0, e > 0 *)
  Definition rpow (x e : R) : R := if Req_EM_T x 0 then 0 else Rpower x e.
  Lemma rpow_nonneg x e : 0 <= rpow x e.
  Proof. unfold rpow. destruct (Req_EM_T x 0); [lra|]. unfold Rpower. left. apply exp_pos. Qed.
  Lemma rpow_pos x e : 0 < x -> 0 < rpow x e.
  Proof. intros H. unfold rpow. destruct (Req_EM_T x 0); [lra|]. unfold Rpower. apply exp_pos. Qed.
  Lemma rpow_le x y e : 0 <= x <= y -> 0 < e -> rpow x e <= rpow y e.
  Proof.
    intros (H1 & H2) He. unfold rpow. destruct (Req_EM_T x 0), (Req_EM_T y 0); try lra.
    - unfold Rpower. left. apply exp_pos.
    - apply Rle_Rpower_l; lra.
  Qed.
  Lemma rpow_inv x e : 0 <= x -> e <> 0 -> rpow (rpow x e) (/ e) = x.
  Proof.
    intros H He. unfold rpow. destruct (Req_EM_T x 0) as [->|Hx].
    - destruct (Req_EM_T 0 0); [reflexivity|lra].
    - destruct (Req_EM_T (Rpower x e) 0) as [E|_].
      + exfalso. unfold Rpower in E. pose proof (exp_pos (e * ln x)). lra.
      + rewrite Rpower_mult, Rinv_r, Rpower_1 by lra. reflexivity.
  Qed.

  Lemma exp_weighted p a : 0 < p < 1 -> exp (p * a) <= p * exp a + (1 - p).
  Proof.
    intros Hp.
    assert (T1 : exp (p * a) * (1 + (a - p * a)) <= exp a).
    { replace (exp a) with (exp (p * a) * exp (a - p * a)) by (rewrite <- exp_plus; f_equal; ring).
      apply Rmult_le_compat_l; [left; apply exp_pos|]. apply exp_ineq1_le. }
    assert (T2 : exp (p * a) * (1 + (- (p * a))) <= 1).
    { replace 1 with (exp (p * a) * exp (- (p * a))) at 2 by (rewrite <- exp_plus, Rplus_opp_r, exp_0; reflexivity).
      apply Rmult_le_compat_l; [left; apply exp_pos|]. apply exp_ineq1_le. }
    apply (Rmult_le_compat_l p) in T1; [|lra]. apply (Rmult_le_compat_l (1 - p)) in T2; [|lra].
    replace (exp (p * a)) with (p * (exp (p * a) * (1 + (a - p * a))) + (1 - p) * (exp (p * a) * (1 + (- (p * a))))) at 1 by ring.
    lra.
  Qed.

  Lemma rpow_tangent x p : 0 <= x -> 0 < p < 1 -> rpow x p <= rpow mu p * (p * (x / mu) + (1 - p)).
  Proof.
    intros Hx Hp. pose proof mu_pos as Hm. pose proof (rpow_pos mu p Hm) as Hmp.
    destruct (Req_EM_T x 0) as [->|Hne].
    - unfold rpow at 1. destruct (Req_EM_T 0 0); [|lra]. apply Rmult_le_pos; [lra|].
      unfold Rdiv. rewrite Rmult_0_l. lra.
    - assert (H0 : 0 < x) by lra. unfold rpow. destruct (Req_EM_T x 0); [lra|]. destruct (Req_EM_T mu 0); [lra|].
      assert (Hq : 0 < x / mu) by (now apply Rdiv_lt_0_compat).
      replace x with (mu * (x / mu)) at 1 by (field; lra).
      rewrite <- Rpower_mult_distr by assumption.
      apply Rmult_le_compat_l; [left; unfold Rpower; apply exp_pos|].
      unfold Rpower. eapply Rle_trans; [apply exp_weighted; exact Hp|]. rewrite exp_ln by assumption. lra.
  Qed.

  Lemma power_mean p : 0 < p < 1 -> 0 < rpow (rmean (map (fun x => rpow x p) l)) (/ p) <= mu.
  Proof.
    intros Hp. pose proof len_pos as Hn. pose proof mu_pos as Hm.
    set (q := rmean (map (fun x => rpow x p) l)).
    assert (Hq0 : 0 < q).
    { unfold q, rmean. rewrite map_length. apply Rdiv_lt_0_compat; [|exact Hn].
      assert (G : exists x, In x l /\ 0 < x).
      { clear n mu Hn Hm q. induction l as [|x l' IH]; [cbn in pos; lra|].
        destruct (Rlt_dec 0 x) as [H|H]; [exists x; split; [now left|assumption]|].
        destruct IH as (y & Hy & H'); [intros y Hy; apply nonneg; now right| |exists y; split; [now right|assumption]].
        pose proof (nonneg x (or_introl eq_refl)). cbn in pos. unfold rsum. lra. }
      destruct G as (x & Hx & Hx0). apply Rlt_le_trans with (rpow x p); [now apply rpow_pos|].
      apply rsum_in_le; [|apply in_map_iff; eauto].
      intros y Hy. apply in_map_iff in Hy as (z & <- & _). apply rpow_nonneg. }
    split; [now apply rpow_pos|].
    assert (Hq : q <= rpow mu p).
    { unfold q, rmean. rewrite map_length. fold n.
      apply Rmult_le_reg_r with n; [assumption|]. unfold Rdiv. rewrite Rmult_assoc, Rinv_l, Rmult_1_r by lra.
      eapply Rle_trans; [apply (rsum_le _ (fun x => rpow mu p * (p * (x / mu) + (1 - p))))|].
      - intros x Hx. apply rpow_tangent; auto.
      - rewrite rsum_mult. apply Req_le. f_equal.
        rewrite (rsum_plus (fun x => p * (x / mu)) (fun _ => 1 - p)), rsum_const, rsum_mult.
        rewrite (rsum_ext (fun x => x / mu) (fun x => / mu * x)) by (intros; unfold Rdiv; ring).
        rewrite rsum_mult, map_id, <- n_mu. fold n. field. lra. }
    rewrite <- (rpow_inv mu p) by lra. apply rpow_le; [lra|]. apply Rinv_0_lt_compat. lra.
  Qed.
End L.

(* ------------------------------------------------------------------ *)
(** ** the model's indices *)
Section Idx.
  Variable Nk : list Z.
  Hypothesis nonneg : forall x, In x Nk -> (0 <= x)%Z.
  Hypothesis pos : (0 < sumZ Nk)%Z.

  Lemma rl_nonneg x : In x (rl Nk) -> 0 <= x.
  Proof. intros H. apply in_map_iff in H as (z & <- & Hz). apply IZR_le. auto. Qed.
  Lemma rl_pos : 0 < rsum (rl Nk).
  Proof. rewrite rsum_rl. now apply IZR_lt. Qed.
  Lemma rl_len : length (rl Nk) = length Nk.
  Proof. apply map_length. Qed.
  Lemma nk_len : 0 < INR (length Nk).
  Proof. rewrite <- rl_len. apply (len_pos (rl Nk)); [apply rl_nonneg|apply rl_pos]. Qed.

  Lemma zmean_fin : zmean Nk = XFin (rmean (rl Nk)).
  Proof.
    unfold zmean, nofnat. cbn [nofZ Num_xr].
    pose proof nk_len as H. unfold rmean. rewrite rsum_rl, rl_len, INR_IZR_INZ.
    rewrite INR_IZR_INZ in H. apply xdiv_fin. lra.
  Qed.

  Lemma vabs_fin r : vabs (XFin r) = XFin (Rabs r).
  Proof.
    unfold vabs. cbn. unfold Rabs. destruct (Rlt_dec r 0), (Rcase_abs r); cbn; try lra; try reflexivity.
  Qed.

  Lemma hood_value : hood_index xsum Nk =
    XFin (rsum (map (fun x => Rabs (x - rmean (rl Nk))) (rl Nk)) / 2 / IZR (sumZ Nk)).
  Proof.
    unfold hood_index. rewrite zmean_fin. set (mu := rmean (rl Nk)).
    rewrite (xsum_ext _ (fun x => Rabs (IZR x - mu))).
    - unfold rl. rewrite map_map.
      change (ndiv n1 (nofZ 2)) with (ndiv (XFin 1) (XFin 2)). rewrite (xdiv_fin 1 2) by lra. set (S_ := rsum _). cbn [nmul Num_xr xmul].
      change (nofZ (sumZ Nk)) with (XFin (IZR (sumZ Nk))). rewrite xdiv_fin.
      + f_equal. field. apply IZR_lt in pos. lra.
      + apply IZR_lt in pos. lra.
    - intros x _. change (nsub (nofZ x) (XFin mu)) with (XFin (IZR x - mu)).
      apply vabs_fin.
  Qed.

  Lemma hood_range : exists r, hood_index xsum Nk = XFin r /\
    0 <= r <= 1 - / INR (length Nk) /\
    (r = 0 <-> forall x y, In x Nk -> In y Nk -> x = y).
  Proof.
    eexists. split; [apply hood_value|].
    pose proof (dev_bound (rl Nk) rl_nonneg rl_pos) as B. rewrite rl_len, rsum_rl in B.
    pose proof (dev_zero (rl Nk) rl_nonneg rl_pos) as Z0.
    set (s := rsum _) in *.
    assert (0 <= s).
    { apply rsum_nonneg. intros x Hx. apply in_map_iff in Hx as (y & <- & _). apply Rabs_pos. }
    assert (P : 0 < IZR (sumZ Nk)) by (now apply IZR_lt).
    assert (Pi : 0 < / IZR (sumZ Nk)) by (now apply Rinv_0_lt_compat).
    split; [split|].
    - unfold Rdiv. apply Rmult_le_pos; [|lra]. lra.
    - apply Rmult_le_reg_r with (IZR (sumZ Nk)); [assumption|].
      unfold Rdiv. rewrite Rmult_assoc, Rinv_l, Rmult_1_r by lra. lra.
    - split.
      + intros E. assert (E' : s = 0).
        { replace s with (s / 2 / IZR (sumZ Nk) * (2 * IZR (sumZ Nk))) by (field; lra). rewrite E. ring. }
        intros x y Hx Hy. apply eq_IZR. apply (proj1 Z0 E'); now apply in_map.
      + intros E. assert (s = 0) as ->; [|field; lra].
        apply Z0. intros x y Hx Hy. apply in_map_iff in Hx as (a & <- & Ha). apply in_map_iff in Hy as (b & <- & Hb).
        f_equal. now apply E.
  Qed.

  Lemma xpow_fin x e : 0 <= x -> 0 < e -> xpow (XFin x) (XFin e) = XFin (rpow x e).
  Proof.
    intros Hx He. unfold xpow, rpow. destruct (Req_EM_T e 0); [lra|]. destruct (Rlt_dec x 0); [lra|].
    destruct (Req_EM_T x 0); [|reflexivity]. destruct (Rlt_dec e 0); [lra|reflexivity].
  Qed.

  Lemma atkinson_range eps : 0 < eps < 1 -> exists r, atkinson_index xsum xpow (XFin eps) Nk = XFin r /\ 0 <= r < 1.
  Proof.
    intros He. set (p := 1 - eps).
    pose proof (power_mean (rl Nk) rl_nonneg rl_pos p) as PM.
    pose proof (mu_pos (rl Nk) rl_nonneg rl_pos) as Hm.
    pose proof nk_len as Hn.
    unfold atkinson_index. change (nsub n1 (XFin eps)) with (XFin p).
    rewrite (xsum_ext _ (fun x => rpow (IZR x) p)).
    2:{ intros x Hx. change (nofZ x) with (XFin (IZR x)). apply xpow_fin; [apply IZR_le; auto|unfold p; lra]. }
    unfold nofnat. change (nofZ (Z.of_nat (length Nk))) with (XFin (IZR (Z.of_nat (length Nk)))).
    rewrite <- INR_IZR_INZ, xdiv_fin by lra.
    change (ndiv n1 (XFin p)) with (ndiv (XFin 1) (XFin p)). rewrite (xdiv_fin 1 p) by (unfold p; lra).
    assert (E : rsum (map (fun x => rpow (IZR x) p) Nk) / INR (length Nk) = rmean (map (fun x => rpow x p) (rl Nk))).
    { unfold rmean, rl. now rewrite map_map, map_length. }
    rewrite E. rewrite xpow_fin.
    2:{ unfold rmean. rewrite map_length, rl_len. unfold Rdiv. apply Rmult_le_pos.
        - apply rsum_nonneg. intros x Hx. apply in_map_iff in Hx as (y & <- & _). apply rpow_nonneg.
        - left. now apply Rinv_0_lt_compat. }
    2:{ unfold Rdiv. rewrite Rmult_1_l. apply Rinv_0_lt_compat. unfold p; lra. }
    rewrite zmean_fin. change (ndiv n1 (XFin (rmean (rl Nk)))) with (ndiv (XFin 1) (XFin (rmean (rl Nk)))).
    rewrite xdiv_fin by lra. cbn [nmul Num_xr xmul].
    change (nsub n1 ?x) with (xsub (XFin 1) x).
    unfold Rdiv. rewrite !Rmult_1_l.
    set (t := rpow _ (/ p)) in *. destruct PM as (T1 & T2); [unfold p; lra|].
    eexists. split; [reflexivity|].
    assert (Hi : 0 < / rmean (rl Nk)) by (now apply Rinv_0_lt_compat).
    assert (0 < / rmean (rl Nk) * t) by (now apply Rmult_lt_0_compat).
    assert (/ rmean (rl Nk) * t <= 1).
    { replace 1 with (/ rmean (rl Nk) * rmean (rl Nk)) by (field; lra). apply Rmult_le_compat_l; lra. }
    lra.
  Qed.
End Idx.
