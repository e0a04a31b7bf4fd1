(** Proofs about Gaussian Mutual Proximity: invariance, held out objects, sampled
    columns. *)
From Coq Require Import String.
From Coq Require Import ZArith List Arith Lia Bool Permutation Reals Lra.
From Verif Require Import Py Num NumT Arr S_Neighbors S_MP S_Approx S_MPDist M_IO M_MPEmpiric M_Approx M_MPDist.
From Verif Require Import P_MPEmpiric P_MPEmpiric2 P_ApproxMPG P_MPDist P_Hubness.
Import ListNotations.
Local Open Scope nat_scope.

(** moments under x -> a x + b *)
Lemma rsum_affine a b l : rsum (map (fun x => a * x + b)%R l) = (a * rsum l + b * INR (length l))%R.
Proof.
  induction l as [|x l IH]; [cbn; ring|].
  change (rsum (map (fun x => a * x + b)%R (x :: l))) with (a * x + b + rsum (map (fun x => a * x + b) l))%R.
  change (rsum (x :: l)) with (x + rsum l)%R. rewrite IH. cbn [length]. rewrite S_INR. ring.
Qed.
Lemma INR_len_ne {A} (l : list A) : l <> [] -> INR (length l) <> 0%R.
Proof. intros H. apply not_0_INR. destruct l; [congruence|discriminate]. Qed.
Lemma rmean_affine a b l : l <> [] -> rmean (map (fun x => a * x + b)%R l) = (a * rmean l + b)%R.
Proof.
  intros H. unfold rmean. rewrite rsum_affine, map_length. field. now apply INR_len_ne.
Qed.
Lemma rstd_affine a b l : l <> [] -> (0 <= a)%R -> rstd (map (fun x => a * x + b)%R l) = (a * rstd l)%R.
Proof.
  intros H Ha. unfold rstd. rewrite rmean_affine by exact H. rewrite map_map.
  rewrite (map_ext _ (fun x => (fun y => (a * a) * y + 0)%R ((x - rmean l) * (x - rmean l))%R)) by (intros; ring).
  rewrite <- (map_map (fun x => (x - rmean l) * (x - rmean l))%R (fun y => (a * a) * y + 0)%R).
  rewrite rmean_affine by (destruct l; [congruence|discriminate]). rewrite Rplus_0_r.
  rewrite sqrt_mult_alt by apply Rle_0_sqr. now rewrite sqrt_square.
Qed.
Lemma seen_affine d d' a b n train j : (forall l, In l train -> l < n) -> j < n ->
  (forall i k, i < n -> k < n -> i <> k -> d' i k = (a * d i k + b)%R) ->
  seen d' train j = map (fun x => a * x + b)%R (seen d train j).
Proof.
  intros Ht Hj H. unfold seen. rewrite map_map. apply map_ext_in. intros l Hl. apply filter_In in Hl as (Hl & E).
  apply negb_true_iff, Nat.eqb_neq in E. apply H; auto.
Qed.

Lemma gval_affine Phi d d' a b n metric train i j :
  (forall l, In l train -> l < n) -> NoDup train -> 2 <= length train -> (0 < a)%R ->
  (forall i k, i < n -> k < n -> i <> k -> d' i k = (a * d i k + b)%R) ->
  i < n -> j < n -> i <> j -> rstd (seen d train i) <> 0%R -> rstd (seen d train j) <> 0%R ->
  gval Phi d' metric train i j = gval Phi d metric train i j.
Proof.
  intros Ht ND HL Ha H Hi Hj Hne Si Sj. unfold gval.
  assert (Z : forall k, k < n -> rstd (seen d train k) <> 0%R ->
     ((d' i j - rmean (seen d' train k)) / spread (seen d' train k) = (d i j - rmean (seen d train k)) / spread (seen d train k))%R).
  { intros k Hk Sk. rewrite (seen_affine d d' a b n) by assumption.
    assert (NE := seen_ne d train k ND HL). unfold spread.
    rewrite rmean_affine, rstd_affine by (assumption || lra).
    rewrite (H i j) by assumption.
    destruct (Req_EM_T (a * rstd (seen d train k)) 0) as [E|E].
    { exfalso. apply Rmult_integral in E as [E|E]; lra. }
    destruct (Req_EM_T (rstd (seen d train k)) 0); [contradiction|]. field. split; lra. }
  now rewrite !Z by assumption.
Qed.

Section Gen.
  Context {V : Type} {N : Num V}.
  Variables (vsum : list V -> V) (cdf sf : V -> V -> V -> V) (vgam : V -> V -> V).

  Lemma col_obs_ext (D D' : arr2 V) train k :
    (forall l, In l train -> l <> k -> at2 D l k = at2 D' l k) ->
    col_obs (fill_diagonal D nnan) train k = col_obs (fill_diagonal D' nnan) train k.
  Proof.
    intros H. unfold col_obs. f_equal. apply map_ext_in. intros l Hl. cbn [at2 fill_diagonal].
    destruct (Nat.eqb_spec l k); [reflexivity|]. auto.
  Qed.
  Lemma gaussi_inv (D : arr2 V) metric ss test M : gaussi vsum cdf sf D metric ss test None = Ok M ->
    nrow D = ncol D /\ valid_metric metric = true /\ ss = 0%Z /\
    M = gaussi_core vsum cdf sf metric (training (nrow D) test) D.
  Proof.
    unfold gaussi. intros H.
    apply bind_ok_inv in H as ([] & H1 & H). apply bind_ok_inv in H as ([] & H2 & H).
    apply bind_ok_inv in H as ([] & H3 & H). rewrite train_rows_spec in H. injection H as <-.
    unfold check_distance_matrix_shape in H1. simpl in H1. unfold guard, dim0, dim1 in H1. simpl in H1.
    destruct (Nat.eqb_spec (nrow D) (ncol D)); [|discriminate]. split; [assumption|].
    split; [now apply check_metric_ok|]. split; [|reflexivity].
    unfold guard in H3. destruct (Z.eqb_spec ss 0); [assumption|discriminate].
  Qed.
  Lemma gammai_inv (D : arr2 V) metric test M : gammai vsum vgam D metric test = Ok M ->
    nrow D = ncol D /\ valid_metric metric = true /\
    M = gammai_core vsum vgam metric (training (nrow D) test) D.
  Proof.
    unfold gammai. intros H.
    apply bind_ok_inv in H as ([] & H1 & H). apply bind_ok_inv in H as ([] & H2 & H).
    rewrite train_rows_spec in H. injection H as <-.
    unfold check_distance_matrix_shape in H1. simpl in H1. unfold guard, dim0, dim1 in H1. simpl in H1.
    destruct (Nat.eqb_spec (nrow D) (ncol D)); [|discriminate]. split; [assumption|].
    split; [now apply check_metric_ok|reflexivity].
  Qed.

  Lemma gaussi_core_shape metric train (D : arr2 V) :
    nrow (gaussi_core vsum cdf sf metric train D) = nrow D /\ ncol (gaussi_core vsum cdf sf metric train D) = nrow D.
  Proof. apply mirror_shape. Qed.
  Lemma gammai_core_shape metric train (D : arr2 V) :
    nrow (gammai_core vsum vgam metric train D) = nrow D /\ ncol (gammai_core vsum vgam metric train D) = nrow D.
  Proof. apply mirror_shape. Qed.
  Lemma gaussi_local (D D' : arr2 V) metric train i j : nrow D = nrow D' ->
    i < nrow D -> j < nrow D ->
    at2 D (Nat.min i j) (Nat.max i j) = at2 D' (Nat.min i j) (Nat.max i j) ->
    (forall l, In l train -> l <> i -> at2 D l i = at2 D' l i) ->
    (forall l, In l train -> l <> j -> at2 D l j = at2 D' l j) ->
    at2 (gaussi_core vsum cdf sf metric train D) i j = at2 (gaussi_core vsum cdf sf metric train D') i j.
  Proof.
    intros En Hi Hj Hc H1 H2. unfold gaussi_core. cbv zeta. rewrite <- En.
    rewrite !mirror_at by assumption.
    rewrite !(col_obs_ext D D' train i H1), !(col_obs_ext D D' train j H2).
    cbn [at2 fill_diagonal]. rewrite (Nat.eqb_sym j i).
    destruct (Nat.eqb_spec i j) as [|E]; [reflexivity|].
    destruct (Nat.ltb_spec i j).
    - rewrite Nat.min_l, Nat.max_r in Hc by lia. now rewrite Hc.
    - rewrite Nat.min_r, Nat.max_l in Hc by lia. now rewrite Hc.
  Qed.
  Lemma gammai_local (D D' : arr2 V) metric train i j : nrow D = nrow D' ->
    i < nrow D -> j < nrow D ->
    at2 D i j = at2 D' i j -> at2 D j i = at2 D' j i ->
    (forall l, In l train -> l <> i -> at2 D l i = at2 D' l i) ->
    (forall l, In l train -> l <> j -> at2 D l j = at2 D' l j) ->
    at2 (gammai_core vsum vgam metric train D) i j = at2 (gammai_core vsum vgam metric train D') i j.
  Proof.
    intros En Hi Hj Hc Hc' H1 H2. unfold gammai_core. cbv zeta. rewrite <- En.
    rewrite !mirror_at by assumption.
    rewrite !(col_obs_ext D D' train i H1), !(col_obs_ext D D' train j H2).
    cbn [at2 fill_diagonal]. rewrite (Nat.eqb_sym j i).
    destruct (Nat.eqb_spec i j) as [|E]; [reflexivity|]. now rewrite Hc, Hc'.
  Qed.

  (** ** rows of a rectangular matrix *)
  Definition grow_value (metric : string) (idx : list nat) (D0 : arr2 V) (i j : nat) : V :=
    let D := set_self_cells idx nnan D0 in
    let mu i := vmean_ vsum (nonnan (rowl D i)) in
    let sd i := no_zero (vstd vsum (nonnan (rowl D i))) in
    gi_value cdf sf metric (at2 D0 i j) (mu i) (sd i) (mu (nth j idx 0)) (sd (nth j idx 0)).

  Lemma gaussi_rows_shape metric idx rows (D : arr2 V) :
    nrow (gaussi_rows vsum cdf sf metric idx rows D) = nrow D /\
    ncol (gaussi_rows vsum cdf sf metric idx rows D) = ncol D.
  Proof.
    unfold gaussi_rows. cbv zeta.
    match goal with |- context [fold_left ?f rows _] => set (F := f) end.
    destruct (set_self_cells_shape idx (mp_self metric) (fold_left F rows (full2 (nrow D) (ncol D) n0))) as (-> & ->).
    assert (G : forall rs M, nrow (fold_left F rs M) = nrow M /\ ncol (fold_left F rs M) = ncol M).
    { induction rs as [|r rs IH]; intros M; [split; reflexivity|]. cbn [fold_left].
      destruct (IH (F M r)) as (-> & ->). split; reflexivity. }
    destruct (G rows (full2 (nrow D) (ncol D) n0)) as (-> & ->). split; reflexivity.
  Qed.
  Lemma gaussi_rows_at metric idx rows (D : arr2 V) a b : length idx = ncol D -> b < ncol D -> In a rows ->
    at2 (gaussi_rows vsum cdf sf metric idx rows D) a b =
    if a =? nth b idx 0 then mp_self metric else grow_value metric idx D a b.
  Proof.
    intros HL Hb Ha. unfold gaussi_rows. cbv zeta. rewrite set_self_cells_at.
    assert (Eb : (b <? length idx) = true) by (apply Nat.ltb_lt; lia).
    rewrite Eb. cbn [andb]. destruct (Nat.eqb_spec a (nth b idx 0)) as [|Hne]; [reflexivity|].
    match goal with |- at2 (fold_left ?f _ _) _ _ = _ => set (F := f) end.
    assert (G : forall rs M, at2 (fold_left F rs M) a b = if existsb (Nat.eqb a) rs then at2 (F M a) a b else at2 M a b).
    { assert (Fa : forall M M', at2 (F M a) a b = at2 (F M' a) a b).
      { intros M M'. unfold F. cbn [at2 setrow]. rewrite Nat.eqb_refl. cbn [andb Nat.leb].
        destruct (Nat.ltb_spec b (ncol D)); [reflexivity|lia]. }
      induction rs as [|r rs IH]; intros M; [reflexivity|]. cbn [fold_left existsb]. rewrite IH.
      destruct (existsb (Nat.eqb a) rs); [rewrite orb_true_r; apply Fa|]. rewrite orb_false_r.
      destruct (Nat.eqb_spec a r) as [->|E]; [reflexivity|].
      unfold F. cbn [at2 setrow]. destruct (Nat.eqb_spec a r); [contradiction|]. reflexivity. }
    rewrite G. replace (existsb (Nat.eqb a) rows) with true.
    2:{ symmetry. apply existsb_exists. exists a. split; [exact Ha|apply Nat.eqb_refl]. }
    unfold F. cbn [at2 setrow]. rewrite Nat.eqb_refl. cbn [andb Nat.leb].
    destruct (Nat.ltb_spec b (ncol D)); [|lia]. unfold grow_value. cbv zeta.
    f_equal. rewrite !set_self_cells_at, Eb. cbn [andb]. destruct (Nat.eqb_spec a (nth b idx 0)); [contradiction|reflexivity].
  Qed.
  Lemma gaussi_sample_inv (D : arr2 V) idx metric test M : gaussi_sample vsum cdf sf D idx metric test = Ok M ->
    ncol D <= nrow D /\ length idx = ncol D /\ valid_metric metric = true /\
    (forall s, In s idx -> s < nrow D) /\
    match test with
    | None => M = gaussi_rows vsum cdf sf metric idx (seq 0 (nrow D)) D
    | Some t => (forall s, In s t -> s < nrow D) /\
                M = Arr2 (length t) (ncol D) (fun a b => at2 (gaussi_rows vsum cdf sf metric idx t D) (nth a t 0) b)
    end.
  Proof.
    unfold gaussi_sample. intros H.
    apply bind_ok_inv in H as ([] & H1 & H). apply bind_ok_inv in H as ([] & H2 & H).
    apply bind_ok_inv in H as ([] & H3 & H).
    unfold check_sample_shape_fits in H1. simpl in H1. unfold guard, dim0, dim1, size_of in H1.
    simpl in H1.
    destruct (Nat.ltb_spec (nrow D) (ncol D)); [discriminate|]. simpl in H1.
    rewrite Nat.mul_1_r in H1.
    destruct (Nat.eqb_spec (ncol D) (length idx)); [|discriminate].
    split; [assumption|]. split; [auto|]. split; [now apply check_metric_ok|].
    unfold guard in H3.
    destruct (existsb (fun s => nrow D <=? s) idx) eqn:E3; [discriminate|].
    split; [now apply existsb_ge_false|].
    destruct test as [t|].
    - apply bind_ok_inv in H as ([] & H4 & H). unfold guard in H4.
      destruct (existsb (fun s => nrow D <=? s) t) eqn:E4; [discriminate|].
      split; [now apply existsb_ge_false|]. now injection H as <-.
    - now injection H as <-.
  Qed.
  Lemma gaussi_sample_total (D : arr2 V) idx metric test :
    ncol D <= nrow D -> length idx = ncol D -> valid_metric metric = true ->
    (forall s, In s idx -> s < nrow D) ->
    match test with None => True | Some t => forall s, In s t -> s < nrow D end ->
    exists M, gaussi_sample vsum cdf sf D idx metric test = Ok M.
  Proof.
    intros Hn Hl Hv Hi Ht. unfold gaussi_sample.
    replace (check_sample_shape_fits (Dense [nrow D; ncol D]) (Dense [length idx])) with (Ok tt).
    2:{ unfold check_sample_shape_fits, guard, dim0, dim1, size_of. simpl.
        replace (nrow D <? ncol D) with false by (symmetry; apply Nat.ltb_ge; lia).
        rewrite Nat.mul_1_r, Hl, Nat.eqb_refl. reflexivity. }
    cbn [bind]. rewrite (proj2 (check_metric_ok metric) Hv). cbn [bind].
    rewrite (proj2 (existsb_ge_false (nrow D) idx) Hi). cbn [guard bind].
    destruct test as [t|]; [|eauto].
    rewrite (proj2 (existsb_ge_false (nrow D) t) Ht). cbn [guard bind]. eauto.
  Qed.
End Gen.

(** ** values of the sampled variant *)
Lemma row_obs_fin (D : arr2 xr) idx d i : length idx = ncol D -> i < nrow D ->
  (forall i x, i < nrow D -> x < ncol D -> nth x idx 0 <> i -> at2 D i x = XFin (d i x)) ->
  nonnan (rowl (set_self_cells idx nnan D) i) = map XFin (row_seen d idx i).
Proof.
  intros HL Hi H. unfold rowl, nonnan, row_seen.
  destruct (set_self_cells_shape idx nnan D) as (_ & ->). rewrite HL.
  assert (G : forall xs, (forall x, In x xs -> x < ncol D) ->
    filter (fun x : xr => negb (nisnan x)) (map (at2 (set_self_cells idx nnan D) i) xs)
    = map XFin (map (fun x => d i x) (filter (fun x => negb (nth x idx 0 =? i)) xs))).
  { induction xs as [|x xs IH]; intros Hx; [reflexivity|]. cbn [map filter].
    rewrite set_self_cells_at. rewrite (proj2 (Nat.ltb_lt _ _)) by (rewrite HL; apply Hx; now left). cbn [andb].
    rewrite (Nat.eqb_sym i). destruct (Nat.eqb_spec (nth x idx 0) i) as [E|E]; cbn [negb map].
    - change (nisnan (V:=xr) nnan) with true. cbn [negb]. apply IH. intros; apply Hx; now right.
    - rewrite H by (auto; apply Hx; now left). change (nisnan (XFin (d i x))) with false. cbn [negb map].
      f_equal. apply IH. intros; apply Hx; now right. }
  apply G. intros x Hx. apply in_seq in Hx. lia.
Qed.
Lemma row_seen_ne d idx i : NoDup idx -> 2 <= length idx -> row_seen d idx i <> [].
Proof.
  intros ND HL C. unfold row_seen in C. apply map_eq_nil in C.
  assert (G : forall x, x < length idx -> nth x idx 0 = i).
  { intros x Hx. destruct (Nat.eq_dec (nth x idx 0) i) as [|E]; [assumption|]. exfalso.
    assert (I : In x (filter (fun x => negb (nth x idx 0 =? i)) (seq 0 (length idx)))).
    { apply filter_In. split; [apply in_seq; lia|]. now apply negb_true_iff, Nat.eqb_neq. }
    rewrite C in I. contradiction. }
  assert (E : nth 0 idx 0 = nth 1 idx 0) by (rewrite (G 0), (G 1) by lia; reflexivity).
  pose proof (proj1 (NoDup_nth idx 0) ND 0 1 ltac:(lia) ltac:(lia) E). lia.
Qed.
Lemma grow_xr Phi cdf sf metric idx (D : arr2 xr) d i j : normal_family Phi cdf sf ->
  length idx = ncol D -> NoDup idx -> 2 <= length idx -> (forall s, In s idx -> s < nrow D) ->
  (forall i x, i < nrow D -> x < ncol D -> nth x idx 0 <> i -> at2 D i x = XFin (d i x)) ->
  i < nrow D -> j < ncol D -> nth j idx 0 <> i ->
  grow_value xsum cdf sf metric idx D i j =
  XFin (mp_of (is_sim metric)
    (Phi ((d i j - rmean (row_seen d idx i)) / spread (row_seen d idx i))%R)
    (Phi ((d i j - rmean (row_seen d idx (nth j idx 0%nat))) / spread (row_seen d idx (nth j idx 0%nat)))%R)).
Proof.
  intros NF HL ND H2 Hr H Hi Hj Hne. unfold grow_value. cbv zeta.
  assert (Hs : nth j idx 0 < nrow D) by (apply Hr, nth_In; lia).
  rewrite !(row_obs_fin D idx d) by assumption.
  rewrite !vmean_xr, !no_zero_std by now apply row_seen_ne.
  rewrite H by assumption. apply gi_value_xr; [exact NF| |]; apply spread_pos.
Qed.
