(** Properties C82-C88: Gaussian Mutual Proximity of dense matrices
    (global_scaling.py:415-661).  Exact arithmetic (extended reals) unless a
    theorem is stated for every type of numbers. *)
From Coq Require Import String.
From Coq Require Import ZArith List Arith Lia Bool Permutation Reals Lra.
From Verif Require Import Py Num NumT Arr S_Neighbors S_MP S_Approx S_MPDist M_IO M_MPEmpiric M_Approx M_MPDist.
From Verif Require Import P_MPEmpiric P_MPEmpiric2 P_ApproxMPG P_MPDist P_MPDist2 P_MPDist3 P_Hubness.
Import ListNotations.
Local Open Scope nat_scope.

(** ** C82 *)
Theorem C82_gaussian_mutual_proximity :
  forall (Phi : R -> R) (cdf sf : xr -> xr -> xr -> xr) (D : arr2 xr) n d metric test,
    normal_family Phi cdf sf -> finite_off D n d -> valid_metric metric = true ->
    2 <= length (training n test) ->
    let m j := rmean (seen d (training n test) j) in
    let s j := spread (seen d (training n test) j) in
    exists M, gaussi xsum cdf sf D metric 0 test None = Ok M /\ nrow M = n /\ ncol M = n /\
      (forall i, i < n -> at2 M i i = if is_sim metric then XFin 1 else XFin 0) /\
      (forall i j, i < j -> j < n -> exists v,
         at2 M i j = XFin v /\ at2 M j i = XFin v /\ (0 <= v <= 1)%R /\
         v = mp_of (is_sim metric) (Phi ((d i j - m i) / s i)%R) (Phi ((d i j - m j) / s j)%R)).
Proof.
  intros Phi cdf sf D n d metric test NF HD Hv HL m s.
  exists (gaussi_core xsum cdf sf metric (train_rows n test) D).
  split; [exact (gaussi_ok cdf sf D n d HD metric test Hv)|].
  destruct (gaussi_core_shape xsum cdf sf metric (train_rows n test) D) as (S1 & S2).
  assert (F := HD). destruct F as (R & _ & _). rewrite S1, S2. split; [exact R|]. split; [exact R|]. split.
  - intros i Hi. rewrite (gaussi_core_at Phi cdf sf NF D n d HD metric test i i HL Hi Hi), Nat.eqb_refl.
    unfold mp_self. destruct (is_sim metric); reflexivity.
  - intros i j Hij Hj. exists (gval Phi d metric (training n test) i j).
    rewrite !(gaussi_core_at Phi cdf sf NF D n d HD metric test) by lia.
    destruct (Nat.eqb_spec i j); [lia|]. destruct (Nat.eqb_spec j i); [lia|].
    destruct (Nat.ltb_spec i j); [|lia]. destruct (Nat.ltb_spec j i); [lia|].
    repeat split; try reflexivity; apply (gval_unit Phi cdf sf NF).
Qed.

(** ** C83 *)
Theorem C83_affine_invariance :
  forall (Phi : R -> R) (cdf sf : xr -> xr -> xr -> xr) (D D' : arr2 xr) n d a b metric test M M',
    normal_family Phi cdf sf -> finite_off D n d ->
    finite_off D' n (fun i j => a * d i j + b)%R -> (0 < a)%R ->
    2 <= length (training n test) ->
    (forall j, j < n -> rstd (seen d (training n test) j) <> 0%R) ->
    gaussi xsum cdf sf D metric 0 test None = Ok M ->
    gaussi xsum cdf sf D' metric 0 test None = Ok M' ->
    eq2 M M'.
Proof.
  intros Phi cdf sf D D' n d a b metric test M M' NF HD HD' Ha HL Hs H H'.
  apply gaussi_inv in H as (_ & _ & _ & ->). apply gaussi_inv in H' as (_ & _ & _ & ->).
  destruct (gaussi_core_shape xsum cdf sf metric (training (nrow D) test) D) as (S1 & S2).
  destruct (gaussi_core_shape xsum cdf sf metric (training (nrow D') test) D') as (S1' & S2').
  assert (F := HD). destruct F as (R & _ & _). assert (F := HD'). destruct F as (R' & _ & _).
  split; [congruence|]. split; [congruence|]. rewrite S1, S2, R, R', <- (train_rows_spec n test). intros i j Hi Hj.
  rewrite (gaussi_core_at Phi cdf sf NF D n d HD metric test i j HL Hi Hj).
  rewrite (gaussi_core_at Phi cdf sf NF D' n _ HD' metric test i j HL Hi Hj).
  destruct (Nat.eqb_spec i j) as [|E]; [reflexivity|]. f_equal.
  destruct (i <? j); symmetry; (apply (gval_affine Phi d _ a b n);
    [apply training_lt|apply training_NoDup|exact HL|exact Ha|reflexivity|assumption|assumption|congruence|now apply Hs|now apply Hs]).
Qed.

(** ** C84 *)
Theorem C84_hubs_are_pushed_away :
  forall (Phi : R -> R) (cdf sf : xr -> xr -> xr -> xr) (D : arr2 xr) n d metric test M i j k x,
    normal_family Phi cdf sf -> (forall a b, (a <= b)%R -> (Phi a <= Phi b)%R) ->
    finite_off D n d -> 2 <= length (training n test) ->
    gaussi xsum cdf sf D metric 0 test None = Ok M ->
    i < n -> j < n -> k < n -> i <> j -> i <> k ->
    (** i is as far from j as from k *)
    d i j = x -> d j i = x -> d i k = x -> d k i = x ->
    (** but, measured in the spread of its distances, that is nearer for k *)
    ((x - rmean (seen d (training n test) k)) / spread (seen d (training n test) k)
     <= (x - rmean (seen d (training n test) j)) / spread (seen d (training n test) j))%R ->
    nle (at2 M i k) (at2 M i j) = true.
Proof.
  intros Phi cdf sf D n d metric test M i j k x NF Mono HD HL H Hi Hj Hk Eij Eik D1 D2 D3 D4 Hz.
  apply gaussi_inv in H as (_ & _ & _ & ->). assert (F := HD). destruct F as (R & _ & _).
  rewrite R, <- (train_rows_spec n test).
  rewrite (gaussi_core_at Phi cdf sf NF D n d HD metric test i j HL Hi Hj).
  rewrite (gaussi_core_at Phi cdf sf NF D n d HD metric test i k HL Hi Hk).
  destruct (Nat.eqb_spec i j); [contradiction|]. destruct (Nat.eqb_spec i k); [contradiction|].
  set (z c := Phi ((x - rmean (seen d (training n test) c)) / spread (seen d (training n test) c))%R).
  assert (E : forall c, d i c = x -> d c i = x ->
    (if i <? c then gval Phi d metric (training n test) i c else gval Phi d metric (training n test) c i)
    = mp_of (is_sim metric) (z i) (z c)).
  { intros c A B. unfold gval. fold (z i). rewrite A, B. fold (z i) (z c).
    destruct (i <? c); [reflexivity|]. unfold mp_of, both_below, not_both_above. destruct (is_sim metric); ring. }
  rewrite (E j D1 D2), (E k D3 D4).
  assert (U : forall c, (0 <= z c <= 1)%R) by (intros c; destruct NF as (U & _); apply U).
  assert (L : (z k <= z j)%R) by (apply Mono; exact Hz).
  pose proof (U i). pose proof (U j). pose proof (U k).
  cbn. destruct (Rle_dec (mp_of (is_sim metric) (z i) (z k)) (mp_of (is_sim metric) (z i) (z j))) as [|Q]; [reflexivity|].
  exfalso. apply Q. unfold mp_of, both_below, not_both_above. destruct (is_sim metric); nra.
Qed.

(** ** C85 *)
(** numbers, summation and distribution functions of any kind *)
Theorem C85_held_out_objects :
  forall (V : Type) (N : Num V) (vsum : list V -> V) (cdf sf : V -> V -> V -> V) (gam : V -> V -> V)
         (D D' : arr2 V) metric test,
    nrow D = nrow D' ->
    (** the matrices differ only in rows and columns of held out objects *)
    (forall i j, In i (training (nrow D) test) -> In j (training (nrow D) test) -> i <> j ->
       at2 D i j = at2 D' i j) ->
    (forall M M', gaussi vsum cdf sf D metric 0 test None = Ok M ->
                  gaussi vsum cdf sf D' metric 0 test None = Ok M' ->
       forall i j, In i (training (nrow D) test) -> In j (training (nrow D) test) -> at2 M i j = at2 M' i j) /\
    (forall M M', gammai vsum gam D metric test = Ok M -> gammai vsum gam D' metric test = Ok M' ->
       forall i j, In i (training (nrow D) test) -> In j (training (nrow D) test) -> at2 M i j = at2 M' i j).
Proof.
  intros V N vsum cdf sf gam D D' metric test En HA. split; intros M M' H H' i j Hi Hj.
  - apply gaussi_inv in H as (_ & _ & _ & ->). apply gaussi_inv in H' as (_ & _ & _ & ->). rewrite <- En.
    destruct (Nat.eq_dec i j) as [->|Hne].
    { assert (J := training_lt _ _ _ Hj). unfold gaussi_core. rewrite <- En. rewrite !mirror_at, Nat.eqb_refl by assumption. reflexivity. }
    apply gaussi_local; [exact En|now apply (training_lt _ test)|now apply (training_lt _ test)| | |].
    + destruct (Nat.min_spec i j) as [(L & ->)|(L & ->)], (Nat.max_spec i j) as [(L' & ->)|(L' & ->)]; try lia; apply HA; auto; lia.
    + intros l Hl Hn. now apply HA.
    + intros l Hl Hn. now apply HA.
  - apply gammai_inv in H as (_ & _ & ->). apply gammai_inv in H' as (_ & _ & ->). rewrite <- En.
    destruct (Nat.eq_dec i j) as [->|Hne].
    { assert (J := training_lt _ _ _ Hj). unfold gammai_core. rewrite <- En. rewrite !mirror_at, Nat.eqb_refl by assumption. reflexivity. }
    apply gammai_local; [exact En|now apply (training_lt _ test)|now apply (training_lt _ test)| | | |].
    + now apply HA.
    + apply HA; auto.
    + intros l Hl Hn. now apply HA.
    + intros l Hl Hn. now apply HA.
Qed.
(** a held out object only sees its distances to training objects and to the other
    object of the pair *)
Theorem C85_held_out_pairs :
  forall (V : Type) (N : Num V) (vsum : list V -> V) (cdf sf : V -> V -> V -> V)
         (D D' : arr2 V) metric test M M' i j,
    nrow D = nrow D' -> i < nrow D -> j < nrow D ->
    at2 D i j = at2 D' i j -> at2 D j i = at2 D' j i ->
    (forall l k, In l (training (nrow D) test) -> k = i \/ k = j -> l <> k -> at2 D l k = at2 D' l k) ->
    gaussi vsum cdf sf D metric 0 test None = Ok M ->
    gaussi vsum cdf sf D' metric 0 test None = Ok M' ->
    at2 M i j = at2 M' i j.
Proof.
  intros V N vsum cdf sf D D' metric test M M' i j En Hi Hj H1 H2 HA H H'.
  apply gaussi_inv in H as (_ & _ & _ & ->). apply gaussi_inv in H' as (_ & _ & _ & ->). rewrite <- En.
  apply gaussi_local; auto.
  destruct (Nat.min_spec i j) as [(L & ->)|(L & ->)], (Nat.max_spec i j) as [(L' & ->)|(L' & ->)]; try lia; auto.
Qed.

(** ** C86 *)
Theorem C86_sampled_columns :
  forall (Phi : R -> R) (cdf sf : xr -> xr -> xr -> xr) (D : arr2 xr) idx d metric ss test,
    normal_family Phi cdf sf -> valid_metric metric = true ->
    ncol D <= nrow D -> length idx = ncol D -> NoDup idx -> 2 <= length idx ->
    (forall s, In s idx -> s < nrow D) ->
    (forall i x, i < nrow D -> x < ncol D -> nth x idx 0 <> i -> at2 D i x = XFin (d i x)) ->
    let m i := rmean (row_seen d idx i) in
    let s i := spread (row_seen d idx i) in
    exists M, gaussi_sample xsum cdf sf D idx metric None = Ok M /\
      gaussi xsum cdf sf D metric ss test (Some idx) = Ok M /\
      nrow M = nrow D /\ ncol M = ncol D /\
      (forall i x, i < nrow D -> x < ncol D -> nth x idx 0 = i ->
         at2 M i x = if is_sim metric then XFin 1 else XFin 0) /\
      (forall i x, i < nrow D -> x < ncol D -> nth x idx 0 <> i ->
         exists v, at2 M i x = XFin v /\ (0 <= v <= 1)%R /\
           v = mp_of (is_sim metric) (Phi ((d i x - m i) / s i)%R)
                 (Phi ((d i x - m (nth x idx 0%nat)) / s (nth x idx 0%nat))%R)).
Proof.
  intros Phi cdf sf D idx d metric ss test NF Hv Hn HL ND H2 Hr HF m s.
  destruct (gaussi_sample_total xsum cdf sf D idx metric None Hn HL Hv Hr I) as (M & E).
  exists M. split; [exact E|].
  split. { unfold gaussi_sample in E. unfold gaussi. exact E. }
  apply gaussi_sample_inv in E as (_ & _ & _ & _ & ->).
  destruct (gaussi_rows_shape xsum cdf sf metric idx (seq 0 (nrow D)) D) as (-> & ->).
  split; [reflexivity|]. split; [reflexivity|]. split.
  - intros i x Hi Hx Ei. rewrite gaussi_rows_at by (auto; apply in_seq; lia). rewrite Ei, Nat.eqb_refl.
    unfold mp_self. destruct (is_sim metric); reflexivity.
  - intros i x Hi Hx Ei. rewrite gaussi_rows_at by (auto; apply in_seq; lia).
    destruct (Nat.eqb_spec i (nth x idx 0)); [congruence|].
    rewrite (grow_xr Phi cdf sf metric idx D d) by assumption.
    eexists. split; [reflexivity|]. split; [|reflexivity]. apply mp_of_unit; destruct NF as (U & _); apply U.
Qed.
(** a test set selects rows of the full result *)
Theorem C86_test_rows :
  forall (V : Type) (N : Num V) (vsum : list V -> V) (cdf sf : V -> V -> V -> V) (D : arr2 V) idx metric t M,
    gaussi_sample vsum cdf sf D idx metric None = Ok M -> (forall r, In r t -> r < nrow D) ->
    exists M', gaussi_sample vsum cdf sf D idx metric (Some t) = Ok M' /\
      nrow M' = length t /\ ncol M' = ncol M /\
      forall a x, a < length t -> x < ncol M -> at2 M' a x = at2 M (nth a t 0) x.
Proof.
  intros V N vsum cdf sf D idx metric t M H Ht.
  apply gaussi_sample_inv in H as (Hn & HL & Hv & Hr & ->).
  destruct (gaussi_sample_total vsum cdf sf D idx metric (Some t) Hn HL Hv Hr Ht) as (M' & E).
  exists M'. split; [exact E|]. apply gaussi_sample_inv in E as (_ & _ & _ & _ & _ & ->). cbn [nrow ncol at2].
  destruct (gaussi_rows_shape vsum cdf sf metric idx (seq 0 (nrow D)) D) as (_ & ->).
  split; [reflexivity|]. split; [reflexivity|]. intros a x Ha Hx.
  assert (I := nth_In t 0 Ha). rewrite !gaussi_rows_at; auto. apply in_seq. specialize (Ht _ I). lia.
Qed.

(** ** C87 *)
Theorem C87_sampling_everything_is_no_sampling :
  forall (Phi : R -> R) (cdf sf : xr -> xr -> xr -> xr) (D : arr2 xr) n d metric M M',
    normal_family Phi cdf sf -> finite_off D n d -> 2 <= n ->
    (forall i j, i < n -> j < n -> i <> j -> d i j = d j i) ->
    gaussi xsum cdf sf D metric 0 None None = Ok M ->
    gaussi_sample xsum cdf sf D (seq 0 n) metric None = Ok M' ->
    eq2 M M'.
Proof.
  intros Phi cdf sf D n d metric M M' NF HD H2 Sy H H'.
  apply gaussi_inv in H as (_ & _ & _ & ->). apply gaussi_sample_inv in H' as (_ & _ & _ & _ & ->).
  destruct (gaussi_core_shape xsum cdf sf metric (training (nrow D) None) D) as (S1 & S2).
  destruct (gaussi_rows_shape xsum cdf sf metric (seq 0 n) (seq 0 (nrow D)) D) as (S1' & S2').
  assert (F := HD). destruct F as (R & C & A). split; [congruence|]. split; [congruence|].
  rewrite S1, S2, R. intros i j Hi Hj.
  change (training n None) with (train_rows n None).
  assert (HL : 2 <= length (training n None)) by (cbn; rewrite seq_length; exact H2).
  rewrite (gaussi_core_at Phi cdf sf NF D n d HD metric None i j HL Hi Hj).
  rewrite gaussi_rows_at; [|rewrite seq_length; congruence|congruence|apply in_seq; lia].
  rewrite seq_nth by exact Hj. cbn [plus]. destruct (Nat.eqb_spec i j) as [|E]; [reflexivity|].
  rewrite (grow_xr Phi cdf sf metric (seq 0 n) D d); [|exact NF|rewrite seq_length; congruence|apply seq_NoDup
    |rewrite seq_length; exact H2|intros s Hs; apply in_seq in Hs; lia| |lia|lia|].
  2:{ intros a x Ha Hx Hne. rewrite seq_nth in Hne by lia. apply A; lia. }
  2:{ rewrite seq_nth by lia. cbn. congruence. }
  rewrite seq_nth by exact Hj. cbn [plus].
  assert (RS : forall k, k < n -> row_seen d (seq 0 n) k = seen d (training n None) k).
  { intros k Hk. unfold row_seen, seen. cbn [training]. rewrite seq_length.
    rewrite (filter_ext_in (fun x => negb (nth x (seq 0 n) 0 =? k)) (fun l => negb (l =? k))).
    - apply map_ext_in. intros l Hl. apply filter_In in Hl as (I1 & I2). apply in_seq in I1.
      apply negb_true_iff, Nat.eqb_neq in I2. apply Sy; lia.
    - intros l Hl. apply in_seq in Hl. now rewrite seq_nth by lia. }
  rewrite !RS by assumption. f_equal. unfold gval. rewrite (Sy j i) by auto.
  destruct (i <? j); [reflexivity|]. unfold mp_of, both_below, not_both_above. destruct (is_sim metric); ring.
Qed.

(** ** C88 *)
Theorem C88_sample_size_is_unusable :
  forall (V : Type) (N : Num V) (vsum : list V -> V) (cdf sf : V -> V -> V -> V) (D : arr2 V) metric ss test,
    nrow D = ncol D -> valid_metric metric = true ->
    (ss <> 0%Z -> gaussi vsum cdf sf D metric ss test None = Raise TypeError) /\
    (exists M, gaussi vsum cdf sf D metric 0 test None = Ok M) /\
    (forall idx, gaussi vsum cdf sf D metric ss test (Some idx) = gaussi vsum cdf sf D metric 0 None (Some idx)).
Proof.
  intros V N vsum cdf sf D metric ss test Sq Hv. unfold gaussi.
  rewrite (check_square _ _ Sq), (proj2 (check_metric_ok metric) Hv). cbn [bind].
  split; [|split; [|reflexivity]].
  - intros Hs. destruct (Z.eqb_spec ss 0); [contradiction|]. reflexivity.
  - eexists. reflexivity.
Qed.

(** ** The hypotheses can be met *)
Definition logistic (z : R) : R := (/ (1 + exp (- z)))%R.
Definition lfam (f : R -> R) (x m s : xr) : xr :=
  match x, m, s with
  | XFin x, XFin m, XFin s => if Rlt_dec 0 s then XFin (f ((x - m) / s)%R) else XNaN
  | _, _, _ => XNaN
  end.
Definition lcdf := lfam logistic.
Definition lsf := lfam (fun z => 1 - logistic z)%R.
Lemma logistic_unit z : (0 < logistic z < 1)%R.
Proof.
  unfold logistic. pose proof (exp_pos (- z)). split; [apply Rinv_0_lt_compat; lra|].
  rewrite <- Rinv_1. apply Rinv_lt_contravar; lra.
Qed.
Lemma logistic_mono a b : (a <= b)%R -> (logistic a <= logistic b)%R.
Proof.
  intros [H|<-]; [|lra]. left. unfold logistic. pose proof (exp_pos (- a)). pose proof (exp_pos (- b)).
  assert (exp (- b) < exp (- a))%R by (apply exp_increasing; lra).
  apply Rinv_lt_contravar; [apply Rmult_lt_0_compat; lra|lra].
Qed.
Lemma logistic_family : normal_family logistic lcdf lsf.
Proof.
  split; [intros z; pose proof (logistic_unit z); lra|]. split; [|split].
  - intros x m s Hs. unfold lcdf, lsf, lfam. destruct (Rlt_dec 0 s); [|contradiction]. split; reflexivity.
  - intros x m. unfold lcdf, lsf, lfam. destruct x, m; try (split; reflexivity). destruct (Rlt_dec 0 0); [lra|]. split; reflexivity.
  - intros x m. unfold lcdf, lsf, lfam. destruct x, m; split; reflexivity.
Qed.
(** four points on a line: 0, 1, 3, 6 *)
Definition line_d (i j : nat) : R :=
  Rabs (nth i [0; 1; 3; 6]%R 0%R - nth j [0; 1; 3; 6]%R 0%R).
Definition line_D : arr2 xr := Arr2 4 4 (fun i j => XFin (line_d i j)).
Lemma line_finite : finite_off line_D 4 line_d.
Proof. repeat split. Qed.
Example C82_case : exists M, gaussi xsum lcdf lsf line_D "distance" 0 (Some [2%Z]) None = Ok M /\ at2 M 1 1 = XFin 0.
Proof.
  destruct (C82_gaussian_mutual_proximity logistic lcdf lsf line_D 4 line_d "distance" (Some [2%Z])
    logistic_family line_finite eq_refl) as (M & E & _ & _ & Dg & _); [cbn; lia|].
  exists M. split; [exact E|]. exact (Dg 1 ltac:(lia)).
Qed.
Lemma rstd_pos a b l : a <> b -> (0 < rstd (a :: b :: l))%R.
Proof.
  intros H. pose proof (rstd_nonneg (a :: b :: l)) as [P|P]; [exact P|]. exfalso.
  unfold rstd in P. symmetry in P. apply sqrt_eq_0 in P.
  - set (m := rmean (a :: b :: l)) in P. unfold rmean in P.
    assert (L : INR (length (map (fun x => (x - m) * (x - m))%R (a :: b :: l))) <> 0%R) by (apply INR_len_ne; discriminate).
    assert (Z : rsum (map (fun x => (x - m) * (x - m))%R (a :: b :: l)) = 0%R).
    { apply Rmult_integral in P as [P|P]; [exact P|]. exfalso. now apply (Rinv_neq_0_compat _ L). }
    set (r := map (fun x => (x - m) * (x - m))%R l) in *.
    change ((a - m) * (a - m) + ((b - m) * (b - m) + rsum r) = 0)%R in Z.
    assert (Q : (0 <= rsum r)%R).
    { apply rsum_nonneg. intros x Hx. apply in_map_iff in Hx as (y & <- & _). apply Rle_0_sqr. }
    pose proof (Rle_0_sqr (a - m)) as A1. pose proof (Rle_0_sqr (b - m)) as B1. unfold Rsqr in A1, B1.
    assert (A2 : ((a - m) * (a - m) = 0)%R) by lra. assert (B2 : ((b - m) * (b - m) = 0)%R) by lra.
    apply Rmult_integral in A2. apply Rmult_integral in B2. lra.
  - apply rmean_nonneg. intros x Hx. apply in_map_iff in Hx as (y & <- & _). apply Rle_0_sqr.
Qed.
Lemma line_spread j : j < 4 -> rstd (seen line_d (training 4 None) j) <> 0%R.
Proof.
  intros Hj. apply Rgt_not_eq.
  destruct j as [|[|[|[|j]]]]; [| | | |lia]; cbn [training seen seq filter map Nat.eqb negb]; unfold line_d; cbn [nth];
    apply rstd_pos; unfold Rabs; repeat destruct Rcase_abs; lra.
Qed.
Example C83_case : exists M M',
  gaussi xsum lcdf lsf line_D "distance" 0 None None = Ok M /\
  gaussi xsum lcdf lsf (Arr2 4 4 (fun i j => XFin (2 * line_d i j + 5))) "distance" 0 None None = Ok M' /\ eq2 M M'.
Proof.
  destruct (C88_sample_size_is_unusable xr Num_xr xsum lcdf lsf line_D "distance" 0 None eq_refl eq_refl) as (_ & (M & E) & _).
  destruct (C88_sample_size_is_unusable xr Num_xr xsum lcdf lsf (Arr2 4 4 (fun i j => XFin (2 * line_d i j + 5))) "distance" 0 None eq_refl eq_refl) as (_ & (M' & E') & _).
  exists M, M'. split; [exact E|]. split; [exact E'|].
  eapply (C83_affine_invariance logistic lcdf lsf line_D (Arr2 4 4 (fun i j => XFin (2 * line_d i j + 5))) 4 line_d 2 5 "distance" None M M' logistic_family line_finite);
    [repeat split|lra|cbn; lia|apply line_spread|exact E|exact E'].
Qed.
(** objects 1 and 2 are at distance 2 of object 0; object 1 is a hub: it is
    nearer to the others *)
Definition hub_d (i j : nat) : R :=
  if ((i =? 0) && (j =? 1)) || ((i =? 1) && (j =? 0)) then 2%R
  else if ((i =? 0) && (j =? 2)) || ((i =? 2) && (j =? 0)) then 2%R
  else if ((i =? 1) && (j =? 3)) || ((i =? 3) && (j =? 1)) then 1%R
  else 2%R.
Example C84_case : exists M,
  gaussi xsum lcdf lsf (Arr2 4 4 (fun i j => XFin (hub_d i j))) "distance" 0 None None = Ok M /\
  nle (at2 M 0 2) (at2 M 0 1) = true.
Proof.
  destruct (C88_sample_size_is_unusable xr Num_xr xsum lcdf lsf (Arr2 4 4 (fun i j => XFin (hub_d i j))) "distance" 0 None eq_refl eq_refl) as (_ & (M & E) & _).
  exists M. split; [exact E|].
  apply (C84_hubs_are_pushed_away logistic lcdf lsf (Arr2 4 4 (fun i j => XFin (hub_d i j))) 4 hub_d "distance" None M 0 1 2 2%R logistic_family logistic_mono);
    try reflexivity; try lia; [repeat split|cbn; lia|exact E|].
  assert (E2 : seen hub_d (training 4 None) 2 = [2; 2; 2]%R) by reflexivity.
  assert (E1 : seen hub_d (training 4 None) 1 = [2; 2; 1]%R) by reflexivity.
  rewrite E1, E2. unfold rmean at 1. cbn [length rsum fold_right].
  replace (2 - (2 + (2 + (2 + 0))) / INR 3)%R with 0%R by (cbn; lra).
  unfold Rdiv at 1. rewrite Rmult_0_l. apply Rmult_le_pos.
  - unfold rmean. cbn. lra.
  - left. apply Rinv_0_lt_compat, spread_pos.
Qed.
(** the last of the four points is moved far away, but it is held out *)
Example C85_case : exists M M',
  gaussi xsum lcdf lsf line_D "distance" 0 (Some [3%Z]) None = Ok M /\
  gaussi xsum lcdf lsf (Arr2 4 4 (fun i j => if (i =? 3) || (j =? 3) then XFin 100 else XFin (line_d i j)))
    "distance" 0 (Some [3%Z]) None = Ok M' /\
  at2 line_D 0 3 <> XFin 100 /\ at2 M 0 1 = at2 M' 0 1.
Proof.
  set (F := Arr2 4 4 (fun i j => if (i =? 3) || (j =? 3) then XFin 100 else XFin (line_d i j))).
  destruct (C88_sample_size_is_unusable xr Num_xr xsum lcdf lsf line_D "distance" 0 (Some [3%Z]) eq_refl eq_refl) as (_ & (M & E) & _).
  destruct (C88_sample_size_is_unusable xr Num_xr xsum lcdf lsf F "distance" 0 (Some [3%Z]) eq_refl eq_refl) as (_ & (M' & E') & _).
  exists M, M'. split; [exact E|]. split; [exact E'|]. split.
  - cbn. intros C. injection C as C. unfold line_d in C. cbn in C. unfold Rabs in C. destruct Rcase_abs; lra.
  - destruct (C85_held_out_objects xr Num_xr xsum lcdf lsf (fun _ _ => XNaN) line_D F "distance" (Some [3%Z]) eq_refl) as (G & _).
    + intros i j Hi Hj _. cbn in Hi, Hj. destruct Hi as [<-|[<-|[<-|[]]]], Hj as [<-|[<-|[<-|[]]]]; reflexivity.
    + apply (G M M' E E'); cbn; tauto.
Qed.
Example C86_case : exists M,
  gaussi_sample xsum lcdf lsf (Arr2 4 2 (fun i x => XFin (line_d i (nth x [3; 1] 0)))) [3; 1] "similarity" None = Ok M /\
  at2 M 3 0 = XFin 1.
Proof.
  destruct (C86_sampled_columns logistic lcdf lsf (Arr2 4 2 (fun i x => XFin (line_d i (nth x [3; 1] 0)))) [3; 1]
    (fun i x => line_d i (nth x [3; 1] 0)) "similarity" 0 None logistic_family eq_refl) as (M & E & _ & _ & _ & Sf & _);
    [cbn; lia|reflexivity|repeat constructor; cbn; lia|cbn; lia|intros s [<-|[<-|[]]]; cbn; lia|reflexivity|].
  - exists M. split; [exact E|]. apply (Sf 3 0); cbn; lia || reflexivity.
Qed.
Example C87_case : exists M M',
  gaussi xsum lcdf lsf line_D "distance" 0 None None = Ok M /\
  gaussi_sample xsum lcdf lsf line_D (seq 0 4) "distance" None = Ok M' /\ eq2 M M'.
Proof.
  destruct (C88_sample_size_is_unusable xr Num_xr xsum lcdf lsf line_D "distance" 0 None eq_refl eq_refl) as (_ & (M & E) & _).
  destruct (gaussi_sample_total xsum lcdf lsf line_D (seq 0 4) "distance" None) as (M' & E'); try reflexivity; try exact I.
  { intros s Hs. apply in_seq in Hs. cbn. lia. }
  exists M, M'. split; [exact E|]. split; [exact E'|].
  apply (C87_sampling_everything_is_no_sampling logistic lcdf lsf line_D 4 line_d "distance" M M' logistic_family line_finite); try lia; auto.
  intros i j _ _ _. unfold line_d. apply Rabs_minus_sym.
Qed.

Print Assumptions C82_gaussian_mutual_proximity.
Print Assumptions C83_affine_invariance.
Print Assumptions C84_hubs_are_pushed_away.
Print Assumptions C85_held_out_objects.
Print Assumptions C85_held_out_pairs.
Print Assumptions C86_sampled_columns.
Print Assumptions C86_test_rows.
Print Assumptions C87_sampling_everything_is_no_sampling.
Print Assumptions C88_sample_size_is_unusable.
