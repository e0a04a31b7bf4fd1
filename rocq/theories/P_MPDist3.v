(** Proofs about Gamma Mutual Proximity and about sparse similarity matrices. *)
From Coq Require Import String.
From Coq Require Import ZArith List Arith Lia Bool Permutation Reals Lra.
From Verif Require Import Py Num NumT Arr S_Neighbors S_MP S_Approx S_MPDist M_IO M_MPEmpiric M_Approx M_MPDist.
From Verif Require Import P_MPEmpiric P_MPEmpiric2 P_ApproxMPG P_MPDist P_MPDist2 P_Hubness.
Import ListNotations.
Local Open Scope nat_scope.

Lemma xdiv_ok a b : b <> 0%R -> ndiv (XFin a) (XFin b) = XFin (a / b).
Proof. intros H. cbn. destruct (Req_EM_T b 0); [contradiction|reflexivity]. Qed.

Lemma vvar1_xr l : 2 <= length l -> vvar1 xsum (map XFin l) = XFin (rvar1 l).
Proof.
  intros H. assert (NE : l <> []) by (destruct l; [cbn in H; lia|discriminate]).
  unfold vvar1. rewrite map_length. destruct (Nat.leb_spec (length l) 1); [lia|].
  rewrite vmean_xr by exact NE.
  rewrite (map_map XFin), (map_ext _ (fun x => XFin ((x - rmean l) * (x - rmean l))%R)) by reflexivity.
  rewrite <- (map_map (fun x => (x - rmean l) * (x - rmean l))%R XFin), xsum_fin.
  unfold nofnat. cbn [nofZ Num_xr]. rewrite <- INR_IZR_INZ. apply xdiv_ok. apply not_0_INR. lia.
Qed.
Lemma no_zero_var l : 2 <= length l -> no_zero (vvar1 xsum (map XFin l)) = XFin (variance_of l).
Proof.
  intros H. rewrite vvar1_xr by exact H. unfold no_zero, variance_of. cbn [neq Num_xr n0 nofZ xeq].
  destruct (Req_EM_T (rvar1 l) 0); [apply tiny_xr|reflexivity].
Qed.
Lemma rvar1_nonneg l : 2 <= length l -> (0 <= rvar1 l)%R.
Proof.
  intros H. unfold rvar1. apply Rmult_le_pos.
  - apply rsum_nonneg. intros x Hx. apply in_map_iff in Hx as (y & <- & _). apply Rle_0_sqr.
  - left. apply Rinv_0_lt_compat, lt_0_INR. lia.
Qed.
Lemma variance_pos l : 2 <= length l -> (0 < variance_of l)%R.
Proof.
  intros H. unfold variance_of. destruct (Req_EM_T (rvar1 l) 0) as [E|E]; [lra|].
  pose proof (rvar1_nonneg l H). lra.
Qed.

Lemma gamcdf_xr G gam x a b : gamma_family G gam -> (0 < a)%R -> (0 < b)%R ->
  gamcdf gam (XFin x) (XFin a) (XFin b) = XFin (G a (Rmax 0 x / b)%R) /\ (0 <= G a (Rmax 0 x / b) <= 1)%R.
Proof.
  intros (F & _) Ha Hb. unfold gamcdf. cbn [nlt nle Num_xr n0 nofZ xlt xle].
  destruct (Rlt_dec a 0); [lra|]. destruct (Rle_dec b 0); [lra|].
  assert (E : (if (if Rlt_dec x 0 then true else false) then XFin 0 else XFin x) = XFin (Rmax 0 x)).
  { unfold Rmax. destruct (Rlt_dec x 0), (Rle_dec 0 x); try lra; try reflexivity. }
  cbn in E |- *. rewrite E. change (xdiv (XFin (Rmax 0 x)) (XFin b)) with (ndiv (XFin (Rmax 0 x)) (XFin b)); rewrite xdiv_ok by lra; apply F; [exact Ha|].
  apply Rmult_le_pos; [apply Rmax_l|]. left. now apply Rinv_0_lt_compat.
Qed.

Section Gamma.
  Variables (G : R -> R -> R) (gam : xr -> xr -> xr).
  Hypothesis GF : gamma_family G gam.
  Variables (D : arr2 xr) (n : nat) (d : nat -> nat -> R).
  Hypothesis HD : finite_off D n d.
  Variable metric : string.

  Definition gcdf (train : list nat) (k : nat) (x : R) : R :=
    G (gamma_shape (seen d train k)) (Rmax 0 x / gamma_scale (seen d train k))%R.
  Definition gaval (train : list nat) (i j : nat) : R :=
    mp_of (is_sim metric) (gcdf train i (d i j)) (gcdf train j (d j i)).

  Lemma gammai_core_at test i j :
    (forall k, k < n -> 2 <= length (seen d (training n test) k) /\ (0 < rmean (seen d (training n test) k))%R) ->
    i < n -> j < n ->
    at2 (gammai_core xsum gam metric (train_rows n test) D) i j
    = if i =? j then mp_self metric
      else XFin (if i <? j then gaval (training n test) i j else gaval (training n test) j i).
  Proof.
    intros HL Hi Hj. assert (HD' := HD). destruct HD' as (R & C & A).
    unfold gammai_core. cbv zeta. rewrite R. rewrite mirror_at by assumption. rewrite train_rows_spec.
    destruct (Nat.eqb_spec i j) as [E|E]; [reflexivity|].
    assert (NE : forall k, k < n -> seen d (training n test) k <> []).
    { intros k Hk C'. destruct (HL k Hk) as (L & _). rewrite C' in L. cbn in L. lia. }
    assert (O : forall k, k < n -> col_obs (fill_diagonal D nnan) (training n test) k
                = map XFin (seen d (training n test) k))
      by (intros k Hk; apply (col_obs_fin D n); auto; apply training_lt).
    assert (PA : forall k, k < n -> exists p, (0 < p)%R /\
      ndiv (nmul (vmean_ xsum (col_obs (fill_diagonal D nnan) (training n test) k))
                 (vmean_ xsum (col_obs (fill_diagonal D nnan) (training n test) k)))
           (no_zero (vvar1 xsum (col_obs (fill_diagonal D nnan) (training n test) k))) = XFin p /\
      p = gamma_shape (seen d (training n test) k)).
    { intros k Hk. destruct (HL k Hk) as (L & P). rewrite O, vmean_xr, no_zero_var by auto.
      pose proof (variance_pos _ L) as Vp. exists (gamma_shape (seen d (training n test) k)).
      split; [|split; [|reflexivity]].
      - unfold gamma_shape. apply Rmult_lt_0_compat; [now apply Rmult_lt_0_compat|now apply Rinv_0_lt_compat].
      - cbn [nmul Num_xr xmul]. rewrite xdiv_ok by lra. reflexivity. }
    assert (PB : forall k, k < n -> exists p, (0 < p)%R /\
      ndiv (no_zero (vvar1 xsum (col_obs (fill_diagonal D nnan) (training n test) k)))
           (vmean_ xsum (col_obs (fill_diagonal D nnan) (training n test) k)) = XFin p /\
      p = gamma_scale (seen d (training n test) k)).
    { intros k Hk. destruct (HL k Hk) as (L & P). rewrite O, vmean_xr, no_zero_var by auto.
      pose proof (variance_pos _ L) as Vp. exists (gamma_scale (seen d (training n test) k)).
      split; [|split; [|reflexivity]].
      - unfold gamma_scale. apply Rmult_lt_0_compat; [assumption|now apply Rinv_0_lt_compat].
      - rewrite xdiv_ok by lra. reflexivity. }
    assert (VAL : forall a b, a < n -> b < n -> a <> b ->
      ga_value gam metric (at2 (fill_diagonal D nnan) a b) (at2 (fill_diagonal D nnan) b a)
        (ndiv (nmul (vmean_ xsum (col_obs (fill_diagonal D nnan) (training n test) a))
                 (vmean_ xsum (col_obs (fill_diagonal D nnan) (training n test) a)))
           (no_zero (vvar1 xsum (col_obs (fill_diagonal D nnan) (training n test) a))))
        (ndiv (no_zero (vvar1 xsum (col_obs (fill_diagonal D nnan) (training n test) a)))
           (vmean_ xsum (col_obs (fill_diagonal D nnan) (training n test) a)))
        (ndiv (nmul (vmean_ xsum (col_obs (fill_diagonal D nnan) (training n test) b))
                 (vmean_ xsum (col_obs (fill_diagonal D nnan) (training n test) b)))
           (no_zero (vvar1 xsum (col_obs (fill_diagonal D nnan) (training n test) b))))
        (ndiv (no_zero (vvar1 xsum (col_obs (fill_diagonal D nnan) (training n test) b)))
           (vmean_ xsum (col_obs (fill_diagonal D nnan) (training n test) b)))
      = XFin (gaval (training n test) a b)).
    { intros a b Ha Hb Hne.
      destruct (PA a Ha) as (p1 & Q1 & -> & E1), (PB a Ha) as (p2 & Q2 & -> & E2).
      destruct (PA b Hb) as (p3 & Q3 & -> & E3), (PB b Hb) as (p4 & Q4 & -> & E4).
      cbn [at2 fill_diagonal]. destruct (Nat.eqb_spec a b); [contradiction|]. destruct (Nat.eqb_spec b a); [congruence|].
      rewrite !A by congruence. unfold ga_value, gaval, gcdf. rewrite <- E1, <- E2, <- E3, <- E4.
      destruct (gamcdf_xr G gam (d a b) p1 p2 GF Q1 Q2) as (-> & _).
      destruct (gamcdf_xr G gam (d b a) p3 p4 GF Q3 Q4) as (-> & _).
      destruct (is_sim metric); cbn; unfold both_below, not_both_above; f_equal. }
    rewrite !VAL by congruence. destruct (i <? j); cbn; f_equal; ring.
  Qed.
  Lemma gaval_unit train i j :
    (forall k, k < n -> 2 <= length (seen d train k) /\ (0 < rmean (seen d train k))%R) ->
    i < n -> j < n -> (0 <= gaval train i j <= 1)%R.
  Proof.
    intros HL Hi Hj. unfold gaval.
    assert (U : forall k x, k < n -> (0 <= gcdf train k x <= 1)%R).
    { intros k x Hk. destruct (HL k Hk) as (L & P). pose proof (variance_pos _ L) as Vp.
      destruct GF as (F & _). apply F.
      - unfold gamma_shape. apply Rmult_lt_0_compat; [now apply Rmult_lt_0_compat|now apply Rinv_0_lt_compat].
      - apply Rmult_le_pos; [apply Rmax_l|]. left. apply Rinv_0_lt_compat.
        unfold gamma_scale. apply Rmult_lt_0_compat; [assumption|now apply Rinv_0_lt_compat]. }
    apply mp_of_unit; apply U; assumption.
  Qed.
  Lemma gammai_ok test : valid_metric metric = true ->
    gammai xsum gam D metric test = Ok (gammai_core xsum gam metric (train_rows n test) D).
  Proof.
    intros Hv. destruct HD as (R & C & _). unfold gammai. rewrite R, C.
    rewrite (check_square n n eq_refl).
    destruct (valid_cases metric Hv) as [-> | ->]; reflexivity.
  Qed.
End Gamma.

Lemma rvar1_scale a l : 2 <= length l -> rvar1 (map (fun x => a * x + 0)%R l) = (a * a * rvar1 l)%R.
Proof.
  intros H. assert (NE : l <> []) by (destruct l; [cbn in H; lia|discriminate]).
  unfold rvar1. rewrite map_length, rmean_affine by exact NE. rewrite map_map.
  rewrite (map_ext _ (fun x => (fun y => (a * a) * y + 0)%R ((x - rmean l) * (x - rmean l))%R)) by (intros; ring).
  rewrite <- (map_map (fun x => (x - rmean l) * (x - rmean l))%R (fun y => (a * a) * y + 0)%R).
  rewrite rsum_affine. field. apply not_0_INR. lia.
Qed.
Lemma gaval_scale G d d' a n metric train i j :
  (forall l, In l train -> l < n) -> (0 < a)%R ->
  (forall i k, i < n -> k < n -> i <> k -> d' i k = (a * d i k)%R) ->
  i < n -> j < n -> i <> j ->
  (forall k, k < n -> 2 <= length (seen d train k) /\ (0 < rmean (seen d train k))%R /\ rvar1 (seen d train k) <> 0%R) ->
  gaval G d' metric train i j = gaval G d metric train i j.
Proof.
  intros Ht Ha H Hi Hj Hne HL. unfold gaval.
  assert (Z : forall k x, k < n -> gcdf G d' train k (a * x) = gcdf G d train k x).
  { intros k x Hk. destruct (HL k Hk) as (L & P & Vn). unfold gcdf, gamma_shape, gamma_scale, variance_of.
    rewrite (seen_affine d d' a 0 n) by (auto; intros; rewrite H by assumption; ring).
    assert (NE : seen d train k <> []) by (destruct (seen d train k); [cbn in L; lia|discriminate]).
    rewrite rmean_affine, rvar1_scale by assumption.
    destruct (Req_EM_T (a * a * rvar1 (seen d train k)) 0) as [E|E].
    { exfalso. apply Rmult_integral in E as [E|E]; [|contradiction]. apply Rmult_integral in E as [E|E]; lra. }
    destruct (Req_EM_T (rvar1 (seen d train k)) 0); [contradiction|].
    f_equal; [field; split; [exact Vn|lra]|].
    rewrite <- (Rmult_0_r a) at 1. rewrite RmaxRmult by lra. field. repeat split; lra. }
  rewrite (H i j), (H j i) by congruence. now rewrite !Z by assumption.
Qed.
