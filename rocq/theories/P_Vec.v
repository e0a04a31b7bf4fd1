(** Facts about real vectors and about the model's primitives on real data. *)
From Coq Require Import String.
From Coq Require Import ZArith Reals Lra Lia Psatz List Arith Bool Permutation.
From Verif Require Import Py Num NumT NumPow Arr S_LS S_Centering M_LS M_Dist M_Centering.
Import ListNotations.
Local Open Scope R_scope.

Lemma rsum_minus {A} (f g : A -> R) l : rsum (map (fun x => f x - g x) l) = rsum (map f l) - rsum (map g l).
Proof. induction l; simpl; lra. Qed.
Lemma rsum_mult_r {A} c (f : A -> R) l : rsum (map (fun x => f x * c) l) = rsum (map f l) * c.
Proof. induction l; simpl; lra. Qed.
Lemma rsum_div_r {A} c (f : A -> R) l : rsum (map (fun x => f x / c) l) = rsum (map f l) / c.
Proof. unfold Rdiv. apply rsum_mult_r. Qed.
Lemma rsum_0 {A} (l : list A) : rsum (map (fun _ => 0) l) = 0.
Proof. induction l; simpl; lra. Qed.

Lemma dotR_ext m u v u' v' : (forall f, (f < m)%nat -> u f = u' f) -> (forall f, (f < m)%nat -> v f = v' f) ->
  dotR m u v = dotR m u' v'.
Proof. intros H K. apply rsum_ext. intros f Hf. apply in_seq in Hf. rewrite H, K by lia. reflexivity. Qed.
Lemma dotR_comm m u v : dotR m u v = dotR m v u.
Proof. apply rsum_ext. intros. ring. Qed.
Lemma dotR_minus_l m u u' v : dotR m (vminus u u') v = dotR m u v - dotR m u' v.
Proof. unfold dotR, vminus. rewrite <- rsum_minus. apply rsum_ext. intros. ring. Qed.
Lemma dotR_minus_r m u v v' : dotR m u (vminus v v') = dotR m u v - dotR m u v'.
Proof. rewrite dotR_comm, dotR_minus_l, !(dotR_comm m u). reflexivity. Qed.
Lemma dotR_scal_l m c u v : dotR m (fun f => c * u f) v = c * dotR m u v.
Proof. unfold dotR. rewrite <- rsum_mult. apply rsum_ext. intros. ring. Qed.
Lemma dotR_scal_r m c u v : dotR m u (fun f => c * v f) = c * dotR m u v.
Proof. now rewrite dotR_comm, dotR_scal_l, dotR_comm. Qed.
Lemma dotR_div_l m c u v : dotR m (fun f => u f / c) v = dotR m u v / c.
Proof. unfold Rdiv. rewrite (dotR_ext m _ v (fun f => / c * u f) v) by (intros; ring). rewrite dotR_scal_l. ring. Qed.
Lemma dotR_div_r m c u v : dotR m u (fun f => v f / c) = dotR m u v / c.
Proof. now rewrite dotR_comm, dotR_div_l, dotR_comm. Qed.
Lemma dotR_mean_r m u x rows : dotR m u (centroidR x rows) = rsum (map (fun i => dotR m u (x i)) rows) / INR (length rows).
Proof.
  unfold dotR, centroidR. rewrite rsum_swap.
  rewrite (rsum_ext _ (fun f => rsum (map (fun i => u f * x i f) rows) / INR (length rows))).
  - apply rsum_div_r.
  - intros f _. unfold Rdiv. rewrite <- Rmult_assoc. f_equal. now rewrite <- rsum_mult.
Qed.
Lemma dotR_pos m u : 0 <= dotR m u u.
Proof. apply rsum_nonneg. intros x Hx. apply in_map_iff in Hx. destruct Hx as (f & <- & _). nra. Qed.
Lemma sqdistR_dot m u v : sqdistR m u v = dotR m (vminus u v) (vminus u v).
Proof. reflexivity. Qed.
Lemma normR_pos m u : 0 <= normR m u.
Proof. apply sqrt_pos. Qed.
Lemma normR_sq m u : normR m u * normR m u = dotR m u u.
Proof. apply sqrt_sqrt, dotR_pos. Qed.

(** Cauchy-Schwarz *)
Lemma cauchy_schwarz_sq m u v : dotR m u v * dotR m u v <= dotR m u u * dotR m v v.
Proof.
  destruct (Req_dec (dotR m v v) 0) as [Z|Z].
  - assert (H : forall f, In f (seq 0 m) -> v f = 0).
    { unfold dotR in Z. revert Z. generalize (seq 0 m). induction l as [|a l IH]; [intros _ f []|].
      simpl. intros E. assert (P : 0 <= rsum (map (fun f => v f * v f) l)).
      { apply rsum_nonneg. intros x Hx. apply in_map_iff in Hx. destruct Hx as (f & <- & _). nra. }
      fold rsum in *. intros f [->|Hf]; [|apply IH; auto; unfold rsum in *; nra].
      assert (v f * v f = 0) by (unfold rsum in *; nra). nra. }
    assert (E : dotR m u v = 0).
    { unfold dotR. rewrite (rsum_ext _ (fun _ => 0)); [apply rsum_0|]. intros f Hf. rewrite H by assumption. ring. }
    rewrite E, Z. lra.
  - assert (P : 0 < dotR m v v) by (pose proof (dotR_pos m v); lra).
    set (t := dotR m u v / dotR m v v).
    pose proof (dotR_pos m (vminus u (fun f => t * v f))) as Q.
    rewrite dotR_minus_l, !dotR_minus_r, !dotR_scal_l, !dotR_scal_r in Q. rewrite (dotR_comm m v u) in Q.
    assert (E : t * dotR m v v = dotR m u v) by (unfold t; field; lra).
    assert (G : t * (t * dotR m v v) = t * dotR m u v) by (rewrite E; ring).
    assert (Q' : t * dotR m u v <= dotR m u u) by lra.
    replace (dotR m u v * dotR m u v) with (t * dotR m u v * dotR m v v) by (rewrite <- E; ring).
    apply Rmult_le_compat_r; lra.
Qed.

Lemma cauchy_schwarz m u v : Rabs (dotR m u v) <= normR m u * normR m v.
Proof.
  unfold normR. rewrite <- sqrt_mult by apply dotR_pos. rewrite <- sqrt_Rsqr_abs. apply sqrt_le_1_alt.
  unfold Rsqr. apply cauchy_schwarz_sq.
Qed.

Lemma cosR_range m u v : 0 < dotR m u u -> 0 < dotR m v v -> -1 <= cosR m u v <= 1.
Proof.
  intros Hu Hv. pose proof (cauchy_schwarz m u v) as C. unfold cosR.
  assert (P : 0 < normR m u * normR m v) by (apply Rmult_lt_0_compat; now apply sqrt_lt_R0).
  assert (A : Rabs (dotR m u v / (normR m u * normR m v)) <= 1).
  { unfold Rdiv. rewrite Rabs_mult, Rabs_inv, (Rabs_pos_eq (normR m u * normR m v)) by lra.
    apply (Rmult_le_reg_r (normR m u * normR m v)); [assumption|]. rewrite Rmult_assoc, Rinv_l by lra. lra. }
  unfold Rabs in A. destruct (Rcase_abs _) in A; lra.
Qed.

(* ------------------------------------------------------------------ *)
(** model primitives on finite data *)
Lemma xs_fin {A} (g : A -> xr) (h : A -> R) l : (forall a, In a l -> g a = XFin (h a)) ->
  xsum (map g l) = XFin (rsum (map h l)).
Proof. intros H. rewrite (map_ext_in _ (fun a => XFin (h a)) l H), <- map_map. apply xsum_fin. Qed.

Lemma vdot_fin m (u v : nat -> xr) u' v' : (forall f, (f < m)%nat -> u f = XFin (u' f)) ->
  (forall f, (f < m)%nat -> v f = XFin (v' f)) -> vdot xsum m u v = XFin (dotR m u' v').
Proof. intros H K. apply xs_fin. intros f Hf. apply in_seq in Hf. rewrite H, K by lia. reflexivity. Qed.

Lemma nofnat_xr n : nofnat n = XFin (INR n).
Proof. unfold nofnat. simpl. now rewrite INR_IZR_INZ. Qed.

Lemma xdiv_fin a b : b <> 0 -> xdiv (XFin a) (XFin b) = XFin (a / b).
Proof. intros H. simpl. destruct (Req_EM_T b 0); [contradiction|reflexivity]. Qed.

Lemma INR_len_pos {A} (l : list A) : l <> [] -> 0 < INR (length l).
Proof. destruct l; [congruence|]. intros _. apply lt_0_INR. simpl. lia. Qed.

Lemma rows_mean_fin (X : arr2 xr) x rows f : rows <> [] -> (forall i, In i rows -> at2 X i f = XFin (x i f)) ->
  rows_mean xsum X rows f = XFin (centroidR x rows f).
Proof.
  intros Hr H. unfold rows_mean. rewrite (xs_fin _ (fun i => x i f)) by assumption. rewrite nofnat_xr.
  apply xdiv_fin. pose proof (INR_len_pos rows Hr). lra.
Qed.

Lemma sqdist_fin m (u v : nat -> xr) u' v' : (forall f, (f < m)%nat -> u f = XFin (u' f)) ->
  (forall f, (f < m)%nat -> v f = XFin (v' f)) -> sqdist xsum m u v = XFin (sqdistR m u' v').
Proof. intros H K. apply xs_fin. intros f Hf. apply in_seq in Hf. rewrite H, K by lia. reflexivity. Qed.

Definition finite2 (X : arr2 xr) (x : nat -> nat -> R) : Prop :=
  forall i f, (i < nrow X)%nat -> (f < ncol X)%nat -> at2 X i f = XFin (x i f).

Lemma check_array_ok (X : arr2 xr) x : finite2 X x -> (0 < nrow X)%nat -> (0 < ncol X)%nat -> check_array X = Ok tt.
Proof.
  intros H Hn Hm. unfold check_array. destruct (Nat.eqb_spec (nrow X) 0); [lia|]. destruct (Nat.eqb_spec (ncol X) 0); [lia|].
  replace (forallb _ _) with true; [reflexivity|]. symmetry. apply forallb_forall. intros i Hi. apply forallb_forall. intros f Hf.
  apply in_seq in Hi. apply in_seq in Hf. rewrite H by lia. reflexivity.
Qed.

Lemma euclid_fin (X Y : arr2 xr) x y : finite2 X x -> finite2 Y y -> (0 < nrow X)%nat -> (0 < nrow Y)%nat ->
  (0 < ncol X)%nat -> ncol X = ncol Y ->
  exists D, euclidean_distances_sq xsum X Y = Ok D /\ nrow D = nrow X /\ ncol D = nrow Y /\
    finite2 D (fun i j => sqdistR (ncol X) (x i) (y j)).
Proof.
  intros HX HY H1 H2 H3 E. unfold euclidean_distances_sq. rewrite (check_array_ok X x HX H1 H3).
  rewrite (check_array_ok Y y HY H2) by lia. cbn [bind]. rewrite E, Nat.eqb_refl. cbn [negb guard bind].
  eexists. split; [reflexivity|]. split; [reflexivity|]. split; [reflexivity|]. intros i j Hi Hj. simpl in *.
  apply sqdist_fin; intros f Hf; [apply HX|apply HY]; lia.
Qed.

Lemma rmat_finite n m x : finite2 (rmat n m x) x.
Proof. intros i f _ _. reflexivity. Qed.

Lemma ls_train_training n mask : ls_train n mask = training n mask.
Proof. reflexivity. Qed.
