(** Proofs about Gumbel Mutual Proximity of sparse similarities, and about Gamma
    Mutual Proximity where its parameters do not exist. *)
From Coq Require Import String.
From Coq Require Import ZArith List Arith Lia Bool Permutation Reals Lra.
From Verif Require Import Py Num NumT Arr S_Neighbors S_MP S_Approx S_MPDist M_IO M_MPEmpiric M_Approx M_MPDist.
From Verif Require Import P_MPEmpiric P_MPEmpiric2 P_ApproxMPG P_MPDist P_MPDist2 P_MPDist3 P_MPDist4 P_Hubness.
Import ListNotations.
Local Open Scope nat_scope.

Lemma gumbel_scale_pos l : (0 < rvar1 l)%R -> (0 < gumbel_scale l)%R.
Proof.
  intros H. unfold gumbel_scale. pose proof PI_RGT_0.
  repeat apply Rmult_lt_0_compat; try apply sqrt_lt_R0; try lra. now apply Rinv_0_lt_compat.
Qed.
Lemma gumbel_unit g l x : (0 < gumbel_cdf g l x < 1)%R.
Proof.
  unfold gumbel_cdf. split; [apply exp_pos|]. apply Rlt_le_trans with (exp 0); [|rewrite exp_0; lra]. apply exp_increasing.
  match goal with |- (- exp ?t < 0)%R => pose proof (exp_pos t) end. lra.
Qed.
Lemma gumbel_mono g l x y : (0 < rvar1 l)%R -> (x < y)%R -> (gumbel_cdf g l x < gumbel_cdf g l y)%R.
Proof.
  intros V H. pose proof (gumbel_scale_pos l V) as P. unfold gumbel_cdf. apply exp_increasing.
  apply Ropp_lt_contravar, exp_increasing. unfold Rdiv.
  apply Rmult_lt_compat_r; [now apply Rinv_0_lt_compat|lra].
Qed.

Lemma map_const_rep {A B} (c : B) (l : list A) : map (fun _ => c) l = repeat c (length l).
Proof. induction l; cbn; congruence. Qed.
Lemma all_equal l (x : R) : 2 <= length l -> (forall y, In y l -> y = x) -> rmean l = x /\ rvar1 l = 0%R.
Proof.
  intros L H.
  assert (E : l = repeat x (length l)).
  { clear L. induction l as [|y l IH]; [reflexivity|]. cbn. f_equal; [apply H; now left|apply IH; intros; apply H; now right]. }
  assert (SR : forall c m, rsum (repeat c m) = (INR m * c)%R).
  { intros c m. induction m as [|m IH]; [cbn; ring|]. rewrite S_INR. cbn. fold (rsum (repeat c m)). rewrite IH. ring. }
  assert (P : INR (length l) <> 0%R) by (apply not_0_INR; lia).
  assert (M : rmean l = x). { unfold rmean. rewrite E at 1. rewrite SR. field. exact P. }
  split; [exact M|]. unfold rvar1. rewrite M.
  rewrite (map_ext_in _ (fun _ => 0%R)) by (intros y Hy; rewrite (H y Hy); ring).
  rewrite map_const_rep, SR. unfold Rdiv. ring.
Qed.

Section GumbelCells.
  Variable g : R.
  Variables (S : smat xr) (n : nat) (w : nat -> nat -> option R) (train : list nat).
  Hypothesis (HS : similarities (stored S) n w).
  Hypothesis (Ht : forall l, In l train -> l < n) (ND : NoDup train).
  Notation X6 := (XFin (sqrt 6)).
  Notation XPI := (XFin PI).

  Lemma PI_ne : PI <> 0%R.
  Proof. pose proof PI_RGT_0. lra. Qed.

  Definition gbeta k : xr := ndiv (nmul (nsqrt (sp_va xsum S train k)) X6) XPI.
  Definition gmu k : xr := nsub (sp_mu xsum S train k) (nmul (XFin g) (gbeta k)).

  Lemma gbeta_xr k : k < n -> In k train -> 2 <= length (known w train k) ->
    gbeta k = XFin (gumbel_scale (known w train k)).
  Proof.
    intros Hk I L. unfold gbeta. rewrite (sp_va_in S n w train HS Ht ND) by assumption.
    pose proof (rvar1_nonneg _ L). cbn [nsqrt Num_xr xsqrt]. destruct (Rlt_dec _ _); [lra|].
    cbn [nmul Num_xr xmul]. rewrite xdiv_ok by exact PI_ne. reflexivity.
  Qed.
  Lemma gmu_xr k : k < n -> In k train -> 2 <= length (known w train k) ->
    gmu k = XFin (gumbel_loc g (known w train k)).
  Proof.
    intros Hk I L. assert (NE : known w train k <> []) by (destruct (known w train k); [cbn in L; lia|discriminate]).
    unfold gmu. rewrite gbeta_xr, (sp_mu_in S n w) by assumption. reflexivity.
  Qed.
  Lemma gumbel_one k x : k < n -> In k train -> 2 <= length (known w train k) -> rvar1 (known w train k) <> 0%R ->
    gumbelcdf xexp (XFin x) (gmu k) (gbeta k) = XFin (gumbel_cdf g (known w train k) x).
  Proof.
    intros Hk I L V. pose proof (rvar1_nonneg _ L) as P. pose proof (gumbel_scale_pos (known w train k) ltac:(lra)).
    unfold gumbelcdf. rewrite gmu_xr, gbeta_xr by assumption. cbn [nsub nopp Num_xr xsub xadd xopp].
    rewrite xdiv_ok by lra. reflexivity.
  Qed.
  (** all known similarities equal (or only one): NaN *)
  Lemma gumbel_nan k x : k < n -> In k train -> In x (known w train k) ->
    (forall y, In y (known w train k) -> y = x) ->
    gumbelcdf xexp (XFin x) (gmu k) (gbeta k) = XNaN.
  Proof.
    intros Hk I Hx Heq.
    destruct (Nat.le_gt_cases 2 (length (known w train k))) as [L|L].
    - destruct (all_equal _ x L Heq) as (E & V).
      unfold gumbelcdf. rewrite gmu_xr, gbeta_xr by assumption. unfold gumbel_loc, gumbel_scale.
      rewrite V, E, sqrt_0. unfold Rdiv. rewrite !Rmult_0_l, Rmult_0_r. cbn.
      replace (- (x + - (x - 0)))%R with 0%R by ring. destruct (Req_EM_T 0 0); [|lra].
      unfold rsgn. destruct (Rlt_dec 0 0); [lra|]. reflexivity.
    - assert (B : gbeta k = XNaN).
      { unfold gbeta, sp_va. assert (NE : known w train k <> []) by (destruct (known w train k); [contradiction|discriminate]).
        rewrite (sp_mu_in S n w), (sp_E1_in S n w) by assumption.
        destruct (sp_col_perm S n w train k HS Hk Ht ND) as (c & Ec & P).
        destruct (in_dec Nat.eq_dec k train); [|contradiction]. rewrite Ec, map_length, (Permutation_length P). cbn [length].
        clear - L NE. destruct (known w train k) as [|y [|? ?]]; [congruence| |cbn in L; lia]. cbn [length Z.of_nat].
        cbv zeta. replace (rmean (map (fun x0 => (x0 * x0)%R) [y])) with (rmean [y] * rmean [y])%R
          by (unfold rmean; cbn; field).
        generalize (rmean [y]). intros m. cbn. destruct (Req_EM_T 0 0); [|lra].
        unfold rsgn. destruct (Rlt_dec 1 0); [lra|]. destruct (Rlt_dec 0 1); [|lra]. cbn. unfold rsgn.
        replace (m * m + - (m * m))%R with 0%R by ring. destruct (Rlt_dec 0 0); [lra|]. reflexivity. }
      unfold gumbelcdf. rewrite B. match goal with |- context [ndiv ?a XNaN] => destruct a end; reflexivity.
  Qed.

  Lemma gus_value_unfold i j x : i < n -> j < n -> w i j = Some x ->
    gus_value xsum xexp X6 XPI (XFin g) S train i j =
    nmul (gumbelcdf xexp (XFin x) (gmu i) (gbeta i)) (gumbelcdf xexp (XFin x) (gmu j) (gbeta j)).
  Proof.
    intros Hi Hj E. unfold gus_value. cbv zeta. destruct HS as (_ & _ & C). destruct (C i j Hi Hj) as (Es & Hz).
    rewrite !(sval_w S n w HS) by assumption. rewrite <- Es, E. cbn [oval option_map].
    assert (x <> 0%R) by congruence. cbn [neq Num_xr n0 nofZ xeq]. destruct (Req_EM_T x 0); [contradiction|]. reflexivity.
  Qed.
  Lemma gus_value_none i j : i < n -> j < n -> w i j = None ->
    gus_value xsum xexp X6 XPI (XFin g) S train i j = XFin 0.
  Proof.
    intros Hi Hj E. unfold gus_value. cbv zeta. destruct HS as (_ & _ & C). destruct (C i j Hi Hj) as (Es & _).
    rewrite !(sval_w S n w HS) by assumption. rewrite <- Es, E. cbn.
    destruct (Req_EM_T 0 0); [|lra]. cbn. f_equal. ring.
  Qed.
End GumbelCells.

(** ** Gamma parameters that do not exist *)
Lemma gamcdf_nan gam x a b : (forall a, gam a XNaN = XNaN) -> b = XNaN \/ nle b n0 = true ->
  gamcdf gam x a b = XNaN.
Proof.
  intros G H. unfold gamcdf.
  assert (E : (if nle b n0 then nnan else b) = XNaN) by (destruct H as [-> | ->]; reflexivity).
  cbv zeta. rewrite E.
  match goal with |- gam ?u (ndiv ?v XNaN) = _ => replace (ndiv v XNaN) with XNaN by (destruct v; reflexivity) end. apply G.
Qed.
Lemma ga_value_nan gam metric dij dji ai bi aj bj :
  (forall a, gam a XNaN = XNaN) -> (bi = XNaN \/ nle bi n0 = true) \/ (bj = XNaN \/ nle bj n0 = true) ->
  ga_value gam metric dij dji ai bi aj bj = XNaN.
Proof.
  intros G [H|H]; unfold ga_value; rewrite (gamcdf_nan gam _ _ _ G H).
  - destruct (is_sim metric); cbn; [reflexivity|]. reflexivity.
  - destruct (is_sim metric); [destruct (gamcdf gam dij ai bi); reflexivity|].
    destruct (gamcdf gam dij ai bi); reflexivity.
Qed.
Lemma gamma_scale_bad (D : arr2 xr) n d train k : finite_off D n d -> k < n -> (forall l, In l train -> l < n) ->
  length (seen d train k) <= 1 \/ (rmean (seen d train k) < 0)%R ->
  let B := ndiv (no_zero (vvar1 xsum (col_obs (fill_diagonal D nnan) train k)))
                (vmean_ xsum (col_obs (fill_diagonal D nnan) train k)) in
  B = XNaN \/ nle B n0 = true.
Proof.
  intros HD Hk Ht H B. unfold B. rewrite (col_obs_fin D n d) by assumption.
  destruct (Nat.le_gt_cases (length (seen d train k)) 1) as [L|L].
  - left. unfold vvar1 at 1. rewrite map_length. destruct (Nat.leb_spec (length (seen d train k)) 1); [|lia]. reflexivity.
  - destruct H as [H|H]; [lia|right].
    assert (NE : seen d train k <> []) by (destruct (seen d train k); [cbn in L; lia|discriminate]).
    rewrite vmean_xr, no_zero_var by (assumption || lia). pose proof (variance_pos (seen d train k) ltac:(lia)) as V.
    rewrite xdiv_ok by lra. cbn. destruct (Rle_dec _ 0) as [|N]; [reflexivity|]. exfalso. apply N.
    unfold Rdiv.
    assert (/ rmean (seen d train k) < 0)%R by (apply Rinv_lt_0_compat; lra). nra.
Qed.
