(** Final theorems: centering, weighted centering, global DisSim, cosine
    distance.  Exact arithmetic. *)
From Coq Require Import String.
From Coq Require Import ZArith Reals Lra Lia Psatz List Arith Bool Permutation.
From Verif Require Import Py Num NumT NumPow Arr S_LS S_Centering M_IO M_LS M_Dist M_Centering P_Vec P_Centering.
Import ListNotations.
Local Open Scope R_scope.

(** ** C33 *)
(** 'vector': the centroid of the training rows is subtracted from every row *)
Theorem C33_vector_formula :
  forall n m x mask, training n mask <> [] ->
    exists C, centering xsum (rmat n m x) "vector" mask = Ok C /\
      eq2 C (rmat n m (fun i f => x i f - centroidR x (training n mask) f)).
Proof.
  intros n m x mask Ht. destruct (centering_vector (rmat n m x) x mask (rmat_finite n m x) Ht) as (C & E & R & S & F).
  exists C. split; [exact E|]. split; [exact R|]. split; [exact S|]. intros i f Hi Hf. now apply F.
Qed.

(** after centering the training rows of every column add up to zero *)
Theorem C33_zero_mean :
  forall n m x mask C, training n mask <> [] -> centering xsum (rmat n m x) "vector" mask = Ok C ->
    forall f, (f < m)%nat -> xsum (map (fun i => at2 C i f) (training n mask)) = XFin 0.
Proof.
  intros n m x mask C Ht E f Hf. destruct (C33_vector_formula n m x mask Ht) as (C' & E' & R & S & F).
  rewrite E' in E. injection E as <-. simpl in R, S.
  rewrite (xs_fin _ (fun i => x i f - centroidR x (training n mask) f)).
  - now rewrite mean_minus_mean.
  - intros i Hi. apply training_lt in Hi. apply F; lia.
Qed.

(** centering twice is centering once *)
Theorem C33_idempotent :
  forall n m x mask C C', training n mask <> [] -> centering xsum (rmat n m x) "vector" mask = Ok C ->
    centering xsum C "vector" mask = Ok C' -> eq2 C C'.
Proof.
  intros n m x mask C C' Ht E E'. destruct (centering_vector (rmat n m x) x mask (rmat_finite n m x) Ht) as (C1 & E1 & R & S & F).
  rewrite E1 in E. injection E as <-. simpl in R, S.
  destruct (centering_vector C1 _ mask F) as (C2 & E2 & R2 & S2 & F2); [now rewrite R|].
  rewrite E2 in E'. injection E' as <-. split; [congruence|]. split; [congruence|]. intros i f Hi Hf. rewrite F, F2 by congruence.
  rewrite R. cbn [nrow rmat]. f_equal.
  assert (Z : centroidR (fun i f => x i f - centroidR x (training n mask) f) (training n mask) f = 0).
  { unfold centroidR at 1. rewrite mean_minus_mean by assumption. unfold Rdiv. ring. }
  rewrite Z. ring.
Qed.

(** moving all points by the same vector does not matter *)
Theorem C33_translation_invariant :
  forall n m x t mask C C', training n mask <> [] ->
    centering xsum (rmat n m x) "vector" mask = Ok C ->
    centering xsum (rmat n m (fun i f => x i f + t f)) "vector" mask = Ok C' -> eq2 C C'.
Proof.
  intros n m x t mask C C' Ht E E'. destruct (C33_vector_formula n m x mask Ht) as (C1 & E1 & R & S & F).
  destruct (C33_vector_formula n m (fun i f => x i f + t f) mask Ht) as (C2 & E2 & R2 & S2 & F2).
  rewrite E1 in E. injection E as <-. rewrite E2 in E'. injection E' as <-.
  simpl in R, S, R2, S2. split; [congruence|]. split; [congruence|]. intros i f Hi Hf. rewrite F, F2 by congruence. simpl.
  rewrite centroidR_shift by assumption. f_equal. ring.
Qed.

(** 'inner': double centering of any square matrix *)
Theorem C33_kernel_formula :
  forall n k metric, In metric ["similarity"; "distance"; "inner"; "inner_product"]%string -> (0 < n)%nat ->
    exists C, centering xsum (rmat n n k) metric None = Ok C /\
      eq2 C (rmat n n (fun i j =>
        k i j - rsum (map (fun a => k a j) (seq 0 n)) / INR n - rsum (map (fun b => k i b) (seq 0 n)) / INR n
          + rsum (map (fun b => rsum (map (fun a => k a b) (seq 0 n))) (seq 0 n)) / (INR n * INR n))).
Proof.
  intros n k metric Hm Hn.
  assert (Im : inner_metric metric) by (simpl in Hm; unfold inner_metric; intuition).
  destruct (centering_kernel (rmat n n k) k n metric Im (rmat_finite n n k) eq_refl eq_refl Hn) as (C & E & R & S & F).
  exists C. split; [exact E|]. split; [exact R|]. split; [exact S|]. intros i j Hi Hj. rewrite F by assumption.
  now rewrite kernel_expand.
Qed.

(** the centred Gram matrix is the Gram matrix of the centred vectors *)
Theorem C33_kernel_is_gram_of_centred :
  forall n m x metric C K, In metric ["similarity"; "distance"; "inner"; "inner_product"]%string -> (0 < n)%nat ->
    centering xsum (rmat n m x) "vector" None = Ok C ->
    centering xsum (rmat n n (fun i j => dotR m (x i) (x j))) metric None = Ok K ->
    nrow K = n /\ ncol K = n /\
    forall i j, (i < n)%nat -> (j < n)%nat -> at2 K i j = xsum (map (fun f => xmul (at2 C i f) (at2 C j f)) (seq 0 m)).
Proof.
  intros n m x metric C K Hm Hn EC EK.
  assert (Im : inner_metric metric) by (simpl in Hm; unfold inner_metric; intuition).
  destruct (centering_kernel (rmat n n (fun i j => dotR m (x i) (x j))) _ n metric Im (rmat_finite n n _) eq_refl eq_refl Hn) as (K' & E & R & S & F).
  rewrite E in EK. injection EK as <-. split; [assumption|]. split; [assumption|]. intros i j Hi Hj.
  assert (Ht : training n None <> []) by (destruct n; [lia|discriminate]).
  destruct (C33_vector_formula n m x None Ht) as (C' & E' & R' & S' & F'). rewrite E' in EC. injection EC as <-.
  rewrite F by lia. rewrite (gram_expand m x n i j Hn).
  symmetry. apply xs_fin. intros f Hf. apply in_seq in Hf. simpl in R', S'. rewrite !F' by lia. reflexivity.
Qed.

(** the rejected calls *)
Theorem C33_errors :
  forall (X : arr2 xr) metric mask,
    (~ In metric ["similarity"; "distance"; "inner"; "inner_product"; "vector"]%string ->
       centering xsum X metric mask = Raise ValueError) /\
    (In metric ["similarity"; "distance"; "inner"; "inner_product"]%string ->
       (forall t, mask = Some t -> centering xsum X metric mask = Raise NotImplementedError) /\
       (mask = None -> nrow X <> ncol X -> centering xsum X metric mask = Raise TypeError)).
Proof.
  intros X metric mask. split.
  - intros H. unfold centering. simpl in H.
    destruct (String.eqb_spec metric "similarity"); [subst; intuition|].
    destruct (String.eqb_spec metric "distance"); [subst; intuition|].
    destruct (String.eqb_spec metric "inner"); [subst; intuition|].
    destruct (String.eqb_spec metric "inner_product"); [subst; intuition|].
    destruct (String.eqb_spec metric "vector"); [subst; intuition|]. reflexivity.
  - intros H. split.
    + intros t ->. simpl in H. destruct H as [<- | [<- | [<- | [<- | []]]]]; reflexivity.
    + intros -> Hne. assert (E : check_distance_matrix_shape (Dense [nrow X; ncol X]) = Raise TypeError).
      { unfold check_distance_matrix_shape. cbn. apply Nat.eqb_neq in Hne. now rewrite Hne. }
      simpl in H. destruct H as [<- | [<- | [<- | [<- | []]]]]; unfold centering; rewrite E; reflexivity.
Qed.

(** ** C34 *)
(** gamma = 0: plain centering on ALL rows, whatever the test mask *)
Theorem C34_gamma_zero :
  forall n m x metric mask, In metric ["cosine"; "euclidean"]%string -> (0 < n)%nat ->
    exists W C, weighted_centering xsum xpow (rmat n m x) metric (XFin 0) mask = Ok W /\
      centering xsum (rmat n m x) "vector" None = Ok C /\ eq2 W C.
Proof.
  intros n m x metric mask Hm Hn.
  assert (Ht : training n None <> []) by (destruct n; [lia|discriminate]).
  destruct (C33_vector_formula n m x None Ht) as (C & EC & R & S & F).
  assert (Ed : exists d, (if String.eqb metric "cosine" then Ok (wcent_cos xsum (rmat n m x) (ls_train n mask))
    else if String.eqb metric "euclidean" then Ok (wcent_euc xsum (rmat n m x) (ls_train n mask)) else Raise ValueError) = Ok d).
  { simpl in Hm. destruct Hm as [<- | [<- | []]]; simpl; eauto. }
  destruct Ed as (d & Ed).
  destruct (weighted_uniform (rmat n m x) x metric (XFin 0) mask d 1 (rmat_finite n m x) Hn Ed) as (W & EW & RW & SW & FW).
  - intros i _. apply xpow_0.
  - lra.
  - exists W, C. split; [exact EW|]. split; [exact EC|]. split; [simpl in *; congruence|]. split; [simpl in *; congruence|].
    intros i f Hi Hf. rewrite FW by assumption. rewrite F by (simpl in *; congruence). reflexivity.
Qed.

(** hence the held-out rows are not held out: with gamma = 0 a cell agrees with
    centering on the training rows only if both means agree in that feature *)
Theorem C34_mask_ignored :
  forall n m x metric test W C, In metric ["cosine"; "euclidean"]%string -> (0 < n)%nat ->
    training n (Some test) <> [] ->
    weighted_centering xsum xpow (rmat n m x) metric (XFin 0) (Some test) = Ok W ->
    centering xsum (rmat n m x) "vector" (Some test) = Ok C ->
    forall i f, (i < n)%nat -> (f < m)%nat ->
      (at2 W i f = at2 C i f <-> centroidR x (seq 0 n) f = centroidR x (training n (Some test)) f).
Proof.
  intros n m x metric test W C Hm Hn Ht EW EC i f Hi Hf.
  destruct (C34_gamma_zero n m x metric (Some test) Hm Hn) as (W' & C0 & E1 & E2 & R & S & F).
  rewrite E1 in EW. injection EW as <-.
  assert (Ht0 : training n None <> []) by (destruct n; [lia|discriminate]).
  destruct (C33_vector_formula n m x None Ht0) as (C0' & E3 & R3 & S3 & F3). rewrite E3 in E2. injection E2 as <-.
  destruct (C33_vector_formula n m x _ Ht) as (C' & E4 & R4 & S4 & F4). rewrite E4 in EC. injection EC as <-.
  simpl in R3, S3, R4, S4. rewrite F by lia. rewrite F3, F4 by lia. cbn [at2 rmat]. change (training n None) with (seq 0 n).
  assert (Q : forall a b, XFin a = XFin b -> a = b) by (intros a b J; now injection J).
  split; intros H; [apply Q in H|rewrite H; reflexivity].
  generalize dependent (centroidR x (seq 0 n) f). generalize (centroidR x (training n (Some test)) f). intros a b J. lra.
Qed.

(** metric 'euclidean': plain centering on all rows for every gamma *)
Theorem C34_euclidean_is_plain :
  forall n m x gamma mask a f, (0 < n)%nat -> In a (training n mask) -> (f < m)%nat -> x a f <> 0 ->
    exists W C, weighted_centering xsum xpow (rmat n m x) "euclidean" (XFin gamma) mask = Ok W /\
      centering xsum (rmat n m x) "vector" None = Ok C /\ eq2 W C.
Proof.
  intros n m x gamma mask a f Hn Ha Hf Hx.
  assert (Ht : training n None <> []) by (destruct n; [lia|discriminate]).
  destruct (C33_vector_formula n m x None Ht) as (C & EC & R & S & F).
  set (rows := ls_train n mask).
  set (s := rsum (concat (map (fun a => map (fun f => Rabs (x a f)) (seq 0 m)) rows))).
  assert (Es : forall i, (i < n)%nat -> wcent_euc xsum (rmat n m x) rows i = XFin s).
  { intros i Hi. rewrite wcent_euc_at by assumption. unfold s. rewrite <- xsum_fin, concat_map, map_map. f_equal. f_equal.
    apply map_ext. intros b. rewrite map_map. apply map_ext. intros g. simpl.
    replace (x b g + - 0) with (x b g) by ring.
    destruct (Rlt_dec (x b g * x b g) 0) as [Q|_]; [nra|]. f_equal. apply sqrt_Rsqr_abs. }
  assert (Ps : 0 < s).
  { unfold s. change rows with (training n mask). apply in_split in Ha. destruct Ha as (l1 & l2 & ->).
    rewrite map_app, concat_app, rsum_app. simpl. rewrite rsum_app.
    assert (P : forall l, 0 <= rsum (concat (map (fun a => map (fun f => Rabs (x a f)) (seq 0 m)) l))).
    { intros l. apply rsum_nonneg. intros y Hy. apply in_concat in Hy. destruct Hy as (r & Hr & Hy).
      apply in_map_iff in Hr. destruct Hr as (b & <- & _). apply in_map_iff in Hy. destruct Hy as (g & <- & _). apply Rabs_pos. }
    assert (Q : 0 < rsum (map (fun f => Rabs (x a f)) (seq 0 m))).
    { replace m with (f + (m - f))%nat by lia. rewrite seq_app, map_app, rsum_app. simpl (0 + f)%nat.
      replace (m - f)%nat with (Datatypes.S (m - Datatypes.S f)) by lia. simpl. fold rsum.
      change (fold_right Rplus 0) with rsum.
      assert (N1 : forall l, 0 <= rsum (map (fun f => Rabs (x a f)) l)).
      { intros l. apply rsum_nonneg. intros y Hy. apply in_map_iff in Hy. destruct Hy as (g & <- & _). apply Rabs_pos. }
      pose proof (N1 (seq 0 f)). pose proof (N1 (seq (Datatypes.S f) (m - Datatypes.S f))). pose proof (Rabs_pos_lt _ Hx). lra. }
    pose proof (P l1). pose proof (P l2). lra. }
  destruct (weighted_uniform (rmat n m x) x "euclidean" (XFin gamma) mask (wcent_euc xsum (rmat n m x) rows)
              (if Req_EM_T gamma 0 then 1 else Rpower s gamma) (rmat_finite n m x) Hn eq_refl) as (W & EW & RW & SW & FW).
  - intros i Hi. rewrite Es by assumption. simpl. destruct (Req_EM_T gamma 0); [reflexivity|].
    destruct (Rlt_dec s 0); [lra|]. destruct (Req_EM_T s 0); [lra|reflexivity].
  - destruct (Req_EM_T gamma 0); [lra|]. unfold Rpower. pose proof (exp_pos (gamma * ln s)). lra.
  - exists W, C. split; [exact EW|]. split; [exact EC|]. split; [simpl in *; congruence|]. split; [simpl in *; congruence|].
    intros i g Hi Hg. rewrite FW by assumption. rewrite F by (simpl in *; congruence). reflexivity.
Qed.

(** ** C55: weighted centering moves the origin AWAY from the hubs.  The
    weights are non-negative and add up to 1, but an object with a larger cosine
    similarity to the centroid gets a smaller weight *)
Lemma powR_mono a b g : 0 <= a -> a < b -> 0 < g -> powR a g < powR b g.
Proof.
  intros Ha Hab Hg. unfold powR. destruct (Req_EM_T g 0); [lra|]. destruct (Req_EM_T b 0); [lra|].
  destruct (Req_EM_T a 0).
  - unfold Rpower. apply exp_pos.
  - unfold Rpower. apply exp_increasing. apply Rmult_lt_compat_l; [assumption|]. apply ln_increasing; lra.
Qed.
Lemma powR_pos a g : 0 <= powR a g.
Proof. unfold powR. destruct (Req_EM_T g 0); [lra|]. destruct (Req_EM_T a 0); [lra|]. unfold Rpower. left. apply exp_pos. Qed.

Theorem C55_weights_favour_dissimilar :
  forall n m x gamma mask,
    let c := centroidR x (training n mask) in
    0 < gamma -> training n mask <> [] ->
    (forall i, (i < n)%nat -> 0 < dotR m (x i) (x i)) -> 0 < dotR m c c ->
    (exists i, (i < n)%nat /\ cosR m (x i) c < 1) ->
    exists W (w : nat -> R), weighted_centering xsum xpow (rmat n m x) "cosine" (XFin gamma) mask = Ok W /\
      eq2 W (rmat n m (fun i f => x i f - rsum (map (fun a => w a * x a f) (seq 0 n)))) /\
      (forall i, (i < n)%nat -> 0 <= w i) /\ rsum (map w (seq 0 n)) = 1 /\
      (forall i j, (i < n)%nat -> (j < n)%nat -> cosR m (x i) c < cosR m (x j) c -> w j < w i).
Proof.
  intros n m x gamma mask c Hg Ht Hp Hc (i0 & Hi0 & Hlt).
  set (rows := training n mask) in *. set (nt := INR (length rows)).
  assert (Pt : 0 < nt) by now apply INR_len_pos.
  set (p := fun i => powR (nt * (1 - cosR m (x i) c)) gamma).
  assert (Rg : forall i, (i < n)%nat -> -1 <= cosR m (x i) c <= 1) by (intros i Hi; apply cosR_range; auto).
  assert (Ed : forall i, (i < n)%nat -> wcent_cos xsum (rmat n m x) rows i = XFin (nt * (1 - cosR m (x i) c))).
  { intros i Hi. rewrite wcent_cos_at by assumption.
    rewrite (cosine_fin _ (fun a f => if (a =? 0)%nat then x i f else c f)).
    - cbn [Nat.eqb ncol rmat]. rewrite nofnat_xr. reflexivity.
    - intros a f Ha Hf. cbn [nrow ncol at2] in *. destruct (Nat.eqb_spec a 0); [reflexivity|].
      unfold c. rewrite <- (rows_mean_fin (rmat n m x) x rows f Ht); [reflexivity|]. reflexivity.
    - intros a Ha. cbn [nrow ncol] in *. destruct (Nat.eqb_spec a 0).
      + rewrite (dotR_ext _ _ _ (x i) (x i)) by reflexivity. now apply Hp.
      + rewrite (dotR_ext _ _ _ c c) by reflexivity. exact Hc.
    - simpl; lia.
    - simpl; lia. }
  assert (Ep : forall i, (i < n)%nat -> xpow (wcent_cos xsum (rmat n m x) rows i) (XFin gamma) = XFin (p i)).
  { intros i Hi. rewrite Ed by assumption. unfold p, powR. pose proof (Rg i Hi). simpl. destruct (Req_EM_T gamma 0); [lra|].
    destruct (Rlt_dec (nt * (1 - cosR m (x i) c)) 0) as [Q|_]; [nra|].
    destruct (Req_EM_T (nt * (1 - cosR m (x i) c)) 0); [|reflexivity]. destruct (Rlt_dec gamma 0); [lra|reflexivity]. }
  assert (Ps : 0 < rsum (map p (seq 0 n))).
  { replace n with (i0 + S (n - S i0))%nat by lia. rewrite seq_app, map_app, rsum_app. simpl. change (fold_right Rplus 0) with rsum.
    assert (N1 : forall l, 0 <= rsum (map p l)).
    { intros l. apply rsum_nonneg. intros y Hy. apply in_map_iff in Hy. destruct Hy as (b & <- & _). apply powR_pos. }
    assert (Q : 0 < p i0).
    { unfold p. assert (Z : powR 0 gamma = 0) by (unfold powR; destruct (Req_EM_T gamma 0); [lra|]; destruct (Req_EM_T 0 0); [reflexivity|contradiction]).
      rewrite <- Z. apply powR_mono; [lra|nra|assumption]. }
    pose proof (N1 (seq 0 i0)). pose proof (N1 (seq (S i0) (n - S i0))). lra. }
  destruct (weighted_from_powers (rmat n m x) x "cosine" (XFin gamma) mask (wcent_cos xsum (rmat n m x) rows) p (rmat_finite n m x) eq_refl Ep)
    as (W & EW & RW & SW & FW); [simpl; lra|].
  exists W, (fun a => p a / rsum (map p (seq 0 n))). split; [exact EW|]. split; [|split; [|split]].
  - split; [exact RW|]. split; [exact SW|]. intros i f Hi Hf. now rewrite FW.
  - intros i _. apply Rmult_le_pos; [apply powR_pos|]. left. now apply Rinv_0_lt_compat.
  - rewrite rsum_div_r. apply Rinv_r. lra.
  - intros i j Hi Hj Hij. apply Rmult_lt_compat_r; [now apply Rinv_0_lt_compat|]. unfold p. apply powR_mono; [|nra|assumption].
    pose proof (Rg j Hj). nra.
Qed.

(** ** C35: global DisSim *)
Theorem C35_dis_sim_global :
  forall n m x Y ny y, (match Y with None => ny = n /\ y = x | Some A => A = rmat ny m y end) ->
    (0 < n)%nat -> (0 < ny)%nat -> (0 < m)%nat ->
    let c := centroidR y (seq 0 ny) in
    exists D, dis_sim_global xsum (rmat n m x) Y = Ok D /\
      eq2 D (rmat n ny (fun i j => -2 * dotR m (vminus (x i) c) (vminus (y j) c))).
Proof.
  intros n m x Y ny y HY Hn Hny Hm c.
  assert (EY : match Y with None => rmat n m x | Some Y => Y end = rmat ny m y) by (destruct Y; [assumption|destruct HY as [-> ->]; reflexivity]).
  unfold dis_sim_global. rewrite EY. cbn [ncol nrow rmat]. rewrite Nat.eqb_refl. cbn [negb guard bind].
  set (cA := Arr2 1 m (fun _ f => rows_mean xsum (rmat ny m y) (seq 0 ny) f)).
  assert (Fc : finite2 cA (fun _ => c)).
  { intros a f _ _. apply (rows_mean_fin (rmat ny m y) y); [destruct ny; [lia|discriminate]|reflexivity]. }
  destruct (euclid_fin (rmat ny m y) cA y (fun _ => c) (rmat_finite ny m y) Fc) as (D1 & E1 & R1 & S1 & F1); try (simpl; lia).
  destruct (euclid_fin (rmat n m x) cA x (fun _ => c) (rmat_finite n m x) Fc) as (D2 & E2 & R2 & S2 & F2); try (simpl; lia).
  destruct (euclid_fin (rmat n m x) (rmat ny m y) x y (rmat_finite n m x) (rmat_finite ny m y)) as (D3 & E3 & R3 & S3 & F3); try (simpl; lia).
  unfold rmat in E1, E2, E3. unfold rmat. fold cA. rewrite E1. cbn [bind]. rewrite E2. cbn [bind]. rewrite E3. cbn [bind].
  eexists. split; [reflexivity|]. simpl in R1, S1, R2, S2, R3, S3. split; [exact R3|]. split; [exact S3|].
  intros i j Hi Hj. cbn [nrow ncol at2] in Hi, Hj |- *. rewrite F3, F1, F2 by lia. cbn [nsub Num_xr xsub xadd xopp rmat at2 ncol]. f_equal.
  rewrite !sqdistR_dot, !dotR_minus_l, !dotR_minus_r. rewrite (dotR_comm m (y j) (x i)), (dotR_comm m c (x i)), (dotR_comm m c (y j)). ring.
Qed.

Theorem C35_translation_invariant :
  forall n m x y ny t D D', (0 < n)%nat -> (0 < ny)%nat -> (0 < m)%nat ->
    dis_sim_global xsum (rmat n m x) (Some (rmat ny m y)) = Ok D ->
    dis_sim_global xsum (rmat n m (fun i f => x i f + t f)) (Some (rmat ny m (fun i f => y i f + t f))) = Ok D' ->
    eq2 D D'.
Proof.
  intros n m x y ny t D D' Hn Hny Hm E E'.
  destruct (C35_dis_sim_global n m x (Some (rmat ny m y)) ny y eq_refl Hn Hny Hm) as (D1 & E1 & R1 & S1 & F1).
  destruct (C35_dis_sim_global n m (fun i f => x i f + t f) (Some (rmat ny m (fun i f => y i f + t f))) ny _ eq_refl Hn Hny Hm) as (D2 & E2 & R2 & S2 & F2).
  rewrite E1 in E. injection E as <-. rewrite E2 in E'. injection E' as <-.
  simpl in R1, S1, R2, S2. split; [congruence|]. split; [congruence|]. intros i j Hi Hj. rewrite F1, F2 by congruence. cbn [rmat at2]. do 2 f_equal.
  assert (Hne : seq 0 ny <> []) by (destruct ny; [lia|discriminate]).
  apply dotR_ext; intros f _; unfold vminus; rewrite centroidR_shift by assumption; ring.
Qed.

Theorem C35_dimension_mismatch :
  forall (X Y : arr2 xr), ncol X <> ncol Y -> dis_sim_global xsum X (Some Y) = Raise ValueError.
Proof. intros X Y H. unfold dis_sim_global. apply Nat.eqb_neq in H. rewrite H. reflexivity. Qed.

(** ** C37: cosine distance *)
Theorem C37_cosine_distance :
  forall n m x, (forall i, (i < n)%nat -> exists f, (f < m)%nat /\ x i f <> 0) ->
    let D := cosine_distance xsum (rmat n m x) in
    nrow D = n /\ ncol D = n /\
    (forall i, (i < n)%nat -> at2 D i i = XFin 0) /\
    (forall i j, (i < n)%nat -> (j < n)%nat -> at2 D i j = at2 D j i) /\
    (forall i j, (i < n)%nat -> (j < n)%nat -> exists d, at2 D i j = XFin d /\ 0 <= d <= 2) /\
    (forall i j, (i < n)%nat -> (j < n)%nat -> i <> j -> at2 D i j = XFin (1 - cosR m (x i) (x j))) /\
    (forall c : nat -> R, (forall i, (i < n)%nat -> 0 < c i) ->
       eq2 (cosine_distance xsum (rmat n m (fun i f => c i * x i f))) D).
Proof.
  intros n m x Hx D.
  assert (P : forall z : nat -> nat -> R, (forall i, (i < n)%nat -> exists f, (f < m)%nat /\ z i f <> 0) ->
     forall i, (i < n)%nat -> 0 < dotR m (z i) (z i)).
  { intros z Hz i Hi. destruct (Hz i Hi) as (f & Hf & Hne). unfold dotR.
    replace m with (f + S (m - S f))%nat by lia. rewrite seq_app, map_app, rsum_app. simpl. change (fold_right Rplus 0) with rsum.
    assert (N1 : forall l, 0 <= rsum (map (fun f => z i f * z i f) l)).
    { intros l. apply rsum_nonneg. intros y Hy. apply in_map_iff in Hy. destruct Hy as (b & <- & _). nra. }
    pose proof (N1 (seq 0 f)). pose proof (N1 (seq (Datatypes.S f) (m - Datatypes.S f))). nra. }
  assert (V : forall i j, (i < n)%nat -> (j < n)%nat -> at2 D i j = XFin (if (i =? j)%nat then 0 else 1 - cosR m (x i) (x j))).
  { intros i j Hi Hj. apply (cosine_fin (rmat n m x) x (rmat_finite n m x) (P x Hx) i j Hi Hj). }
  split; [reflexivity|]. split; [reflexivity|]. split; [|split; [|split; [|split]]].
  - intros i Hi. rewrite V by assumption. now rewrite Nat.eqb_refl.
  - intros i j Hi Hj. rewrite !V by assumption. rewrite (Nat.eqb_sym j i). destruct (i =? j)%nat; [reflexivity|].
    unfold cosR. now rewrite dotR_comm, (Rmult_comm (normR m (x i))).
  - intros i j Hi Hj. rewrite V by assumption. eexists. split; [reflexivity|]. destruct (i =? j)%nat; [lra|].
    pose proof (cosR_range m (x i) (x j) (P x Hx i Hi) (P x Hx j Hj)). lra.
  - intros i j Hi Hj Hne. rewrite V by assumption. apply Nat.eqb_neq in Hne. now rewrite Hne.
  - intros c Hc. split; [reflexivity|]. split; [reflexivity|]. intros i j Hi Hj. cbn [nrow ncol cosine_distance zip2 triu1 mask_value transpose rmat] in Hi, Hj.
    rewrite V by assumption.
    rewrite (cosine_fin (rmat n m (fun i f => c i * x i f)) _ (rmat_finite n m _)); try assumption.
    + cbn [ncol rmat]. destruct (i =? j)%nat; [reflexivity|]. rewrite cosR_scale by auto. reflexivity.
    + apply P. intros a Ha. destruct (Hx a Ha) as (f & Hf & Hne). exists f. split; [assumption|].
      apply Rmult_integral_contrapositive. split; [pose proof (Hc a Ha); lra|assumption].
Qed.

(* ------------------------------------------------------------------ *)
(** concrete cases: three points in the plane, the last one held out *)
Definition ex3 : nat -> nat -> R := fun i f => match i, f with
  | 0%nat, 0%nat => 1 | 0%nat, _ => 0 | 1%nat, 0%nat => 0 | 1%nat, _ => 1 | _, 0%nat => 3 | _, _ => 4 end.
Example C34_case : exists W C,
  weighted_centering xsum xpow (rmat 3 2 ex3) "cosine" (XFin 0) (Some [2%nat]) = Ok W /\
  centering xsum (rmat 3 2 ex3) "vector" (Some [2%nat]) = Ok C /\ at2 W 0 0 <> at2 C 0 0.
Proof.
  destruct (C34_gamma_zero 3 2 ex3 "cosine" (Some [2%nat])) as (W & C0 & E & _); [simpl; auto|lia|].
  destruct (C33_vector_formula 3 2 ex3 (Some [2%nat])) as (C & E' & _); [discriminate|].
  exists W, C. split; [exact E|]. split; [exact E'|]. intros H.
  apply (C34_mask_ignored 3 2 ex3 "cosine" [2%nat] W C) in H; try assumption; try lia; [|simpl; auto|discriminate].
  revert H. unfold centroidR. simpl. lra.
Qed.
Example C55_case : let c := centroidR ex3 (training 3 (Some [2%nat])) in
  0 < dotR 2 c c /\ (forall i, (i < 3)%nat -> 0 < dotR 2 (ex3 i) (ex3 i)) /\
  cosR 2 (ex3 0) c < 1 /\ cosR 2 (ex3 0) c < cosR 2 (ex3 2) c.
Proof.
  assert (Q : forall a b, 0 <= a -> 0 <= b -> a * a < b * b -> a < b) by (intros; nra).
  assert (S1 : sqrt 1 = 1) by apply sqrt_1.
  assert (S2 : 0 < sqrt (/ 2)) by (apply sqrt_lt_R0; lra).
  assert (S3 : sqrt (/ 2) * sqrt (/ 2) = / 2) by (apply sqrt_sqrt; lra).
  assert (S4 : sqrt 25 = 5) by (replace 25 with (5 * 5) by ring; apply sqrt_square; lra).
  assert (N0 : normR 2 (ex3 0) = 1) by (unfold normR; replace (dotR 2 (ex3 0) (ex3 0)) with 1 by (unfold dotR; simpl; ring); exact S1).
  assert (N2 : normR 2 (ex3 2) = 5) by (unfold normR; replace (dotR 2 (ex3 2) (ex3 2)) with 25 by (unfold dotR; simpl; ring); exact S4).
  set (c := centroidR ex3 (training 3 (Some [2%nat]))).
  assert (c0 : c 0%nat = / 2) by (unfold c, centroidR; simpl; lra).
  assert (c1 : c 1%nat = / 2) by (unfold c, centroidR; simpl; lra).
  assert (Dc : dotR 2 c c = / 2) by (unfold dotR; simpl; rewrite c0, c1; lra).
  assert (Nc : normR 2 c = sqrt (/ 2)) by (unfold normR; now rewrite Dc).
  assert (D0 : dotR 2 (ex3 0) c = / 2) by (unfold dotR; simpl; rewrite c0, c1; lra).
  assert (D2 : dotR 2 (ex3 2) c = 7 / 2) by (unfold dotR; simpl; rewrite c0, c1; lra).
  cbv zeta. split; [rewrite Dc; lra|]. split.
  - intros i Hi. unfold dotR. destruct i as [|[|[|i]]]; try lia; simpl; lra.
  - unfold cosR. rewrite N0, N2, Nc, D0, D2. set (q := sqrt (/ 2)) in *. split.
    + apply (Rmult_lt_reg_r q); [assumption|]. replace (/ 2 / (1 * q) * q) with (/ 2) by (field; lra). nra.
    + apply (Rmult_lt_reg_r q); [assumption|]. replace (/ 2 / (1 * q) * q) with (/ 2) by (field; lra).
      replace (7 / 2 / (5 * q) * q) with (7 / 10) by (field; lra). lra.
Qed.
Example C37_case : forall i, (i < 3)%nat -> exists f, (f < 2)%nat /\ ex3 i f <> 0.
Proof. intros i Hi. destruct i as [|[|[|i]]]; try lia; [exists 0%nat|exists 1%nat|exists 1%nat]; simpl; split; try lia; lra. Qed.

Print Assumptions C33_vector_formula.
Print Assumptions C33_zero_mean.
Print Assumptions C33_idempotent.
Print Assumptions C33_translation_invariant.
Print Assumptions C33_kernel_formula.
Print Assumptions C33_kernel_is_gram_of_centred.
Print Assumptions C33_errors.
Print Assumptions C34_gamma_zero.
Print Assumptions C34_mask_ignored.
Print Assumptions C34_euclidean_is_plain.
Print Assumptions C55_weights_favour_dissimilar.
Print Assumptions C35_dis_sim_global.
Print Assumptions C35_translation_invariant.
Print Assumptions C35_dimension_mismatch.
Print Assumptions C37_cosine_distance.
