(** Centering, cosine distance, weighted centering and DisSim on real data. *)
From Coq Require Import String.
From Coq Require Import ZArith Reals Lra Lia Psatz List Arith Bool Permutation.
From Verif Require Import Py Num NumT NumPow Arr S_LS S_Centering M_IO M_LS M_Dist M_Centering P_Vec.
Import ListNotations.
Local Open Scope R_scope.

Lemma training_all n : training n None = seq 0 n.
Proof. reflexivity. Qed.
Lemma training_lt n mask i : In i (training n mask) -> (i < n)%nat.
Proof. destruct mask as [t|]; simpl; intros H; [apply filter_In in H; destruct H as [H _]|]; apply in_seq in H; lia. Qed.

Lemma centering_vector (X : arr2 xr) x mask : finite2 X x -> training (nrow X) mask <> [] ->
  exists C, centering xsum X "vector" mask = Ok C /\ nrow C = nrow X /\ ncol C = ncol X /\
    finite2 C (fun i f => x i f - centroidR x (training (nrow X) mask) f).
Proof.
  intros HX Ht. eexists. split; [reflexivity|]. split; [reflexivity|]. split; [reflexivity|].
  intros i f Hi Hf. simpl in Hi, Hf. cbn [at2]. rewrite ls_train_training.
  rewrite HX by assumption. rewrite (rows_mean_fin X x); [reflexivity|assumption|].
  intros a Ha. apply HX; [|assumption]. now apply training_lt in Ha.
Qed.

Lemma mean_minus_mean x rows f : rows <> [] ->
  rsum (map (fun i => x i f - centroidR x rows f) rows) = 0.
Proof.
  intros H. rewrite rsum_minus, rsum_const. unfold centroidR. field. pose proof (INR_len_pos rows H). lra.
Qed.

Lemma centroidR_shift x t rows f : rows <> [] -> centroidR (fun i f => x i f + t f) rows f = centroidR x rows f + t f.
Proof.
  intros H. unfold centroidR. rewrite rsum_plus, rsum_const. field. pose proof (INR_len_pos rows H). lra.
Qed.

(** kernel centering *)
Definition hR (n i j : nat) : R := (if (i =? j)%nat then 1 else 0) - 1 / INR n.

Lemma rsum_pick (g : nat -> R) i n : (i < n)%nat -> rsum (map (fun k => (if (i =? k)%nat then 1 else 0) * g k) (seq 0 n)) = g i.
Proof.
  intros Hi. replace n with (i + S (n - S i))%nat by lia. rewrite seq_app, map_app, rsum_app. simpl.
  rewrite Nat.eqb_refl. fold rsum.
  rewrite (rsum_ext _ (fun _ => 0) (seq 0 i)); [|intros a Ha; apply in_seq in Ha; destruct (Nat.eqb_spec i a); [lia|ring]].
  change (fold_right Rplus 0) with rsum.
  rewrite (rsum_ext _ (fun _ => 0) (seq (S i) _)); [|intros a Ha; apply in_seq in Ha; destruct (Nat.eqb_spec i a); [lia|ring]].
  rewrite !rsum_0. ring.
Qed.

Lemma hR_l n i g : (i < n)%nat -> dotR n (hR n i) g = g i - rsum (map g (seq 0 n)) / INR n.
Proof.
  intros Hi. unfold dotR, hR.
  rewrite (rsum_ext _ (fun k => (if (i =? k)%nat then 1 else 0) * g k - g k / INR n)) by (intros; field; apply not_0_INR; lia).
  rewrite rsum_minus, rsum_pick by assumption. f_equal. apply rsum_div_r.
Qed.
Lemma hR_r n j g : (j < n)%nat -> dotR n g (fun k => hR n k j) = g j - rsum (map g (seq 0 n)) / INR n.
Proof.
  intros Hj. rewrite dotR_comm, <- (hR_l n j g Hj). apply dotR_ext; [|reflexivity]. intros f _. unfold hR. now rewrite Nat.eqb_sym.
Qed.

Definition inner_metric (s : string) : Prop := s = "similarity"%string \/ s = "distance"%string \/ s = "inner"%string \/ s = "inner_product"%string.

Lemma check_shape_sq {V} (X : arr2 V) : nrow X = ncol X -> check_distance_matrix_shape (Dense [nrow X; ncol X]) = Ok tt.
Proof. intros H. unfold check_distance_matrix_shape. cbn. rewrite H, Nat.eqb_refl. reflexivity. Qed.

Lemma centering_kernel (K : arr2 xr) k n s : inner_metric s -> finite2 K k -> nrow K = n -> ncol K = n -> (0 < n)%nat ->
  exists C, centering xsum K s None = Ok C /\ nrow C = n /\ ncol C = n /\
    finite2 C (fun i j => k i j - rsum (map (fun a => k a j) (seq 0 n)) / INR n
                 - rsum (map (fun b => k i b - rsum (map (fun a => k a b) (seq 0 n)) / INR n) (seq 0 n)) / INR n).
Proof.
  intros Hs HK Hr Hc Hn.
  assert (U : centering xsum K s None =
    bind (matmul xsum (cent_H (nrow K)) K) (fun A => matmul xsum A (cent_H (nrow K)))).
  { unfold centering. rewrite check_shape_sq by lia. destruct Hs as [-> | [-> | [-> | ->]]]; reflexivity. }
  rewrite U. unfold matmul. cbn [nrow ncol at2 cent_H]. rewrite Hr, Hc, Nat.eqb_refl. cbn [negb guard bind nrow ncol at2].
  rewrite Nat.eqb_refl. cbn [negb guard bind]. eexists. split; [reflexivity|]. split; [reflexivity|]. split; [reflexivity|].
  assert (Hh : forall i j, nsub (if (i =? j)%nat then n1 else n0) (ndiv n1 (nofnat n)) = XFin (hR n i j)).
  { intros i j. rewrite nofnat_xr. unfold hR. change (ndiv n1 (XFin (INR n))) with (xdiv (XFin (IZR 1)) (XFin (INR n))).
    rewrite xdiv_fin by (apply not_0_INR; lia). destruct (i =? j)%nat; simpl; f_equal; lra. }
  intros i j Hi Hj. cbn [nrow ncol at2] in *.
  rewrite (vdot_fin n _ _ (fun b => k i b - rsum (map (fun a => k a b) (seq 0 n)) / INR n) (fun b => hR n b j)).
  - now rewrite hR_r by assumption.
  - intros b Hb. rewrite (vdot_fin n _ _ (hR n i) (fun a => k a b)).
    + now rewrite hR_l by assumption.
    + intros a _. apply Hh.
    + intros a Ha. apply HK; lia.
  - intros b _. apply Hh.
Qed.

Lemma rsum_const_seq c n : rsum (map (fun _ : nat => c) (seq 0 n)) = INR n * c.
Proof. rewrite rsum_const, seq_length. reflexivity. Qed.

Lemma kernel_expand (k : nat -> nat -> R) n i j : (0 < n)%nat ->
  k i j - rsum (map (fun a => k a j) (seq 0 n)) / INR n
  - rsum (map (fun b => k i b - rsum (map (fun a => k a b) (seq 0 n)) / INR n) (seq 0 n)) / INR n
  = k i j - rsum (map (fun a => k a j) (seq 0 n)) / INR n - rsum (map (fun b => k i b) (seq 0 n)) / INR n
    + rsum (map (fun b => rsum (map (fun a => k a b) (seq 0 n))) (seq 0 n)) / (INR n * INR n).
Proof.
  intros Hn. rewrite (rsum_minus (fun b => k i b) (fun b => rsum (map (fun a => k a b) (seq 0 n)) / INR n)).
  rewrite (rsum_div_r (INR n) (fun b => rsum (map (fun a => k a b) (seq 0 n)))). field. apply not_0_INR. lia.
Qed.

Lemma gram_expand m x n i j : (0 < n)%nat ->
  let c := centroidR x (seq 0 n) in let k := fun a b => dotR m (x a) (x b) in
  k i j - rsum (map (fun a => k a j) (seq 0 n)) / INR n
  - rsum (map (fun b => k i b - rsum (map (fun a => k a b) (seq 0 n)) / INR n) (seq 0 n)) / INR n
  = dotR m (vminus (x i) c) (vminus (x j) c).
Proof.
  intros Hn c k. unfold k.
  assert (E : forall b, dotR m c (x b) = rsum (map (fun a => dotR m (x a) (x b)) (seq 0 n)) / INR n).
  { intros b. unfold c. rewrite dotR_comm, dotR_mean_r, seq_length. f_equal. apply rsum_ext. intros. apply dotR_comm. }
  rewrite dotR_minus_l, !dotR_minus_r.
  assert (E1 : dotR m (x i) c = rsum (map (fun b => dotR m (x i) (x b)) (seq 0 n)) / INR n) by (unfold c; now rewrite dotR_mean_r, seq_length).
  assert (E2 : dotR m c c = rsum (map (fun b => dotR m c (x b)) (seq 0 n)) / INR n) by (unfold c at 2; now rewrite dotR_mean_r, seq_length).
  rewrite E1, E2, (E j), rsum_minus.
  rewrite (rsum_ext (fun b => dotR m c (x b)) (fun b => rsum (map (fun a => dotR m (x a) (x b)) (seq 0 n)) / INR n)) by (intros; apply E).
  field. apply not_0_INR. lia.
Qed.

(* ------------------------------------------------------------------ *)
(** cosine distance *)
Lemma cosine_fin (X : arr2 xr) x : finite2 X x -> (forall i, (i < nrow X)%nat -> 0 < dotR (ncol X) (x i) (x i)) ->
  forall i j, (i < nrow X)%nat -> (j < nrow X)%nat ->
  at2 (cosine_distance xsum X) i j = XFin (if (i =? j)%nat then 0 else 1 - cosR (ncol X) (x i) (x j)).
Proof.
  intros HX Hp.
  assert (Y : forall i f, (i < nrow X)%nat -> (f < ncol X)%nat ->
    ndiv (at2 X i f) (nsqrt (xsum (map (fun f => nmul (at2 X i f) (at2 X i f)) (seq 0 (ncol X))))) = XFin (x i f / normR (ncol X) (x i))).
  { intros i f Hi Hf. rewrite (xs_fin _ (fun f => x i f * x i f)) by (intros a Ha; apply in_seq in Ha; rewrite HX by lia; reflexivity).
    change (rsum _) with (dotR (ncol X) (x i) (x i)). rewrite HX by assumption. simpl.
    destruct (Rlt_dec (dotR (ncol X) (x i) (x i)) 0) as [Q|_]; [pose proof (dotR_pos (ncol X) (x i)); lra|].
    fold (normR (ncol X) (x i)).
    pose proof (sqrt_lt_R0 _ (Hp i Hi)) as Q. fold (normR (ncol X) (x i)) in Q. destruct (Req_EM_T _ 0); [lra|reflexivity]. }
  assert (D : forall i j, (i < nrow X)%nat -> (j < nrow X)%nat ->
    at2 (mask_value (Arr2 (nrow X) (nrow X) (fun i j => nsub n1 (vdot xsum (ncol X)
       (at2 (Arr2 (nrow X) (ncol X) (fun i f => ndiv (at2 X i f) (nsqrt (xsum (map (fun f => nmul (at2 X i f) (at2 X i f)) (seq 0 (ncol X))))))) i)
       (at2 (Arr2 (nrow X) (ncol X) (fun i f => ndiv (at2 X i f) (nsqrt (xsum (map (fun f => nmul (at2 X i f) (at2 X i f)) (seq 0 (ncol X))))))) j))))
       (fun v => nlt v n0) n0) i j = XFin (1 - cosR (ncol X) (x i) (x j))).
  { intros i j Hi Hj. unfold mask_value. cbn [at2 nrow ncol].
    rewrite (vdot_fin (ncol X) _ _ (fun f => x i f / normR (ncol X) (x i)) (fun f => x j f / normR (ncol X) (x j)))
      by (intros f Hf; now apply Y).
    rewrite dotR_div_l, dotR_div_r.
    pose proof (sqrt_lt_R0 _ (Hp i Hi)) as Qi. pose proof (sqrt_lt_R0 _ (Hp j Hj)) as Qj.
    fold (normR (ncol X) (x i)) in Qi. fold (normR (ncol X) (x j)) in Qj.
    replace (_ / _ / _) with (cosR (ncol X) (x i) (x j)) by (unfold cosR; field; lra).
    pose proof (cosR_range (ncol X) (x i) (x j) (Hp i Hi) (Hp j Hj)) as R.
    change (nsub n1 (XFin (cosR (ncol X) (x i) (x j)))) with (XFin (1 + - cosR (ncol X) (x i) (x j))).
    simpl. destruct (Rlt_dec _ 0); [lra|]. f_equal. }
  intros i j Hi Hj. unfold cosine_distance, zip2, transpose, triu1. cbn [at2 nrow ncol].
  destruct (Nat.ltb_spec i j), (Nat.ltb_spec j i), (Nat.eqb_spec i j); try lia.
  - rewrite D by assumption. simpl. f_equal. lra.
  - rewrite D by assumption. simpl. f_equal. unfold cosR. rewrite dotR_comm, (Rmult_comm (normR _ (x j))). lra.
  - simpl. f_equal. lra.
Qed.

Lemma cosine_shape (X : arr2 xr) : nrow (cosine_distance xsum X) = nrow X /\ ncol (cosine_distance xsum X) = nrow X.
Proof. split; reflexivity. Qed.

Lemma cosR_scale m c d u v : 0 < c -> 0 < d -> cosR m (fun f => c * u f) (fun f => d * v f) = cosR m u v.
Proof.
  intros Hc Hd. unfold cosR, normR. rewrite !dotR_scal_l, !dotR_scal_r.
  assert (S : forall e w, 0 < e -> sqrt (e * (e * dotR m w w)) = e * sqrt (dotR m w w)).
  { intros e w He. rewrite <- Rmult_assoc, sqrt_mult by (try apply dotR_pos; nra). rewrite sqrt_square by lra. reflexivity. }
  rewrite !S by assumption.
  destruct (Req_dec (sqrt (dotR m u u) * sqrt (dotR m v v)) 0) as [E|E].
  - replace (c * sqrt (dotR m u u) * (d * sqrt (dotR m v v))) with (c * d * (sqrt (dotR m u u) * sqrt (dotR m v v))) by ring.
    rewrite E, Rmult_0_r. unfold Rdiv. rewrite Rinv_0. ring.
  - field. split; [|split; [|split]]; try lra; intros Z; apply E; rewrite Z; ring.
Qed.

(* ------------------------------------------------------------------ *)
(** weighted centering *)
Lemma upd_loop (n : nat) (g : nat -> xr -> xr) : forall i, (i < n)%nat ->
  for_ n (fun i d => upd d i (g i (d i))) (fun _ => XFin 0) i = g i (XFin 0).
Proof.
  assert (H : forall n i, for_ n (fun i d => upd d i (g i (d i))) (fun _ => XFin 0) i = if (i <? n)%nat then g i (XFin 0) else XFin 0).
  { induction n0 as [|k IH]; intros i; [reflexivity|]. rewrite for_S. unfold upd.
    destruct (Nat.eqb_spec i k) as [-> | E].
    - rewrite IH, Nat.ltb_irrefl. destruct (Nat.ltb_spec k (S k)); [reflexivity|lia].
    - rewrite IH. destruct (Nat.ltb_spec i k), (Nat.ltb_spec i (S k)); try lia; reflexivity. }
  intros i Hi. rewrite H. destruct (Nat.ltb_spec i n); [reflexivity|lia].
Qed.

Lemma wcent_cos_at (X : arr2 xr) rows i : (i < nrow X)%nat ->
  wcent_cos xsum X rows i =
  nmul (nofnat (length rows)) (at2 (cosine_distance xsum (Arr2 2 (ncol X) (fun a f => if (a =? 0)%nat then at2 X i f
     else ndiv (xsum (map (fun i => at2 X i f) rows)) (nofnat (length rows))))) 0 1).
Proof. intros Hi. unfold wcent_cos. change (@n0 xr Num_xr) with (XFin 0). apply (upd_loop (nrow X) (fun i _ => _) i Hi). Qed.

Lemma wcent_euc_at (X : arr2 xr) rows i : (i < nrow X)%nat ->
  wcent_euc xsum X rows i =
  xsum (concat (map (fun a => map (fun f => nsqrt (nmul (nsub (at2 X a f) (XFin 0)) (nsub (at2 X a f) (XFin 0)))) (seq 0 (ncol X))) rows)).
Proof.
  intros Hi. unfold wcent_euc. change (@n0 xr Num_xr) with (XFin 0).
  exact (upd_loop (nrow X) (fun i di => xsum (concat (map (fun a => map (fun f => nsqrt (nmul (nsub (at2 X a f) di) (nsub (at2 X a f) di))) (seq 0 (ncol X))) rows))) i Hi).
Qed.

(** result of weighted centering once the powers of the weights are known *)
Lemma weighted_from_powers (X : arr2 xr) x metric gamma mask d p :
  finite2 X x ->
  (if String.eqb metric "cosine" then Ok (wcent_cos xsum X (ls_train (nrow X) mask))
   else if String.eqb metric "euclidean" then Ok (wcent_euc xsum X (ls_train (nrow X) mask)) else Raise ValueError) = Ok d ->
  (forall i, (i < nrow X)%nat -> xpow (d i) gamma = XFin (p i)) ->
  rsum (map p (seq 0 (nrow X))) <> 0 ->
  exists C, weighted_centering xsum xpow X metric gamma mask = Ok C /\ nrow C = nrow X /\ ncol C = ncol X /\
    finite2 C (fun i f => x i f - rsum (map (fun a => p a / rsum (map p (seq 0 (nrow X))) * x a f) (seq 0 (nrow X)))).
Proof.
  intros HX Ed Hp Hs. unfold weighted_centering. rewrite Ed. cbn [bind]. eexists. split; [reflexivity|]. split; [reflexivity|]. split; [reflexivity|].
  intros i f Hi Hf. cbn [at2 nrow ncol] in *. rewrite HX by assumption.
  rewrite (xs_fin (fun i0 => xpow (d i0) gamma) p) by (intros a Ha; apply Hp; apply in_seq in Ha; lia).
  rewrite (xs_fin _ (fun a => p a / rsum (map p (seq 0 (nrow X))) * x a f)).
  - reflexivity.
  - intros a Ha. apply in_seq in Ha. rewrite Hp by lia. rewrite HX by lia.
    change (ndiv (XFin (p a)) (XFin (rsum (map p (seq 0 (nrow X)))))) with (xdiv (XFin (p a)) (XFin (rsum (map p (seq 0 (nrow X)))))).
    rewrite xdiv_fin by assumption. reflexivity.
Qed.

Lemma uniform_mean x (q : R) n f : q <> 0 -> (0 < n)%nat ->
  rsum (map (fun a => q / rsum (map (fun _ => q) (seq 0 n)) * x a f) (seq 0 n)) = centroidR x (seq 0 n) f.
Proof.
  intros Hq Hn. rewrite rsum_const_seq, rsum_mult. unfold centroidR. rewrite seq_length. assert (INR n <> 0) by (apply not_0_INR; lia). field. auto.
Qed.

Lemma xpow_0 x : xpow x (XFin 0) = XFin 1.
Proof. simpl. destruct (Req_EM_T 0 0); [reflexivity|contradiction]. Qed.

Lemma weighted_uniform (X : arr2 xr) x metric gamma mask d q :
  finite2 X x -> (0 < nrow X)%nat ->
  (if String.eqb metric "cosine" then Ok (wcent_cos xsum X (ls_train (nrow X) mask))
   else if String.eqb metric "euclidean" then Ok (wcent_euc xsum X (ls_train (nrow X) mask)) else Raise ValueError) = Ok d ->
  (forall i, (i < nrow X)%nat -> xpow (d i) gamma = XFin q) -> q <> 0 ->
  exists C, weighted_centering xsum xpow X metric gamma mask = Ok C /\ nrow C = nrow X /\ ncol C = ncol X /\
    finite2 C (fun i f => x i f - centroidR x (seq 0 (nrow X)) f).
Proof.
  intros HX Hn Ed Hp Hq. destruct (weighted_from_powers X x metric gamma mask d (fun _ => q) HX Ed Hp) as (C & E & R & S & F).
  - rewrite rsum_const_seq. apply Rmult_integral_contrapositive. split; [apply not_0_INR; lia|assumption].
  - exists C. split; [assumption|]. split; [assumption|]. split; [assumption|]. intros i f Hi Hf. rewrite F by assumption.
    now rewrite (uniform_mean x q).
Qed.
