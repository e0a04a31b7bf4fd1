(** Properties C89-C94: Gamma Mutual Proximity of dense matrices, Gaussian and
    Gamma Mutual Proximity of sparse matrices (global_scaling.py:675-950). *)
From Coq Require Import String.
From Coq Require Import ZArith List Arith Lia Bool Permutation Reals Lra.
From Verif Require Import Py Num NumT Arr S_Neighbors S_MP S_Approx S_MPDist M_IO M_MPEmpiric M_Approx M_MPDist.
From Verif Require Import P_MPEmpiric P_MPEmpiric2 P_ApproxMPG P_MPDist P_MPDist2 P_MPDist3 P_MPDist4 P_Hubness Properties_MPDist.
Import ListNotations.
Local Open Scope nat_scope.

(** ** C89 *)
Theorem C89_gamma_mutual_proximity :
  forall (G : R -> R -> R) (gam : xr -> xr -> xr) (D : arr2 xr) n d metric test,
    gamma_family G gam -> finite_off D n d -> valid_metric metric = true ->
    (forall k, k < n -> 2 <= length (seen d (training n test) k) /\ (0 < rmean (seen d (training n test) k))%R) ->
    let F k x := G (gamma_shape (seen d (training n test) k)) (Rmax 0 x / gamma_scale (seen d (training n test) k))%R in
    exists M, gammai xsum gam D metric test = Ok M /\ nrow M = n /\ ncol M = n /\
      (forall i, i < n -> at2 M i i = if is_sim metric then XFin 1 else XFin 0) /\
      (forall i j, i < j -> j < n -> exists v,
         at2 M i j = XFin v /\ at2 M j i = XFin v /\ (0 <= v <= 1)%R /\
         v = mp_of (is_sim metric) (F i (d i j)) (F j (d j i))).
Proof.
  intros G gam D n d metric test GF HD Hv HL F.
  exists (gammai_core xsum gam metric (train_rows n test) D).
  split; [exact (gammai_ok gam D n d HD metric test Hv)|].
  destruct (gammai_core_shape xsum gam metric (train_rows n test) D) as (S1 & S2).
  assert (H := HD). destruct H as (R & _ & _). rewrite S1, S2. split; [exact R|]. split; [exact R|]. split.
  - intros i Hi. rewrite (gammai_core_at G gam GF D n d HD metric test i i HL Hi Hi), Nat.eqb_refl.
    unfold mp_self. destruct (is_sim metric); reflexivity.
  - intros i j Hij Hj. exists (gaval G d metric (training n test) i j).
    rewrite !(gammai_core_at G gam GF D n d HD metric test) by (assumption || lia).
    destruct (Nat.eqb_spec i j); [lia|]. destruct (Nat.eqb_spec j i); [lia|].
    destruct (Nat.ltb_spec i j); [|lia]. destruct (Nat.ltb_spec j i); [lia|].
    assert (U := gaval_unit G gam GF n d metric (training n test) i j HL ltac:(lia) Hj).
    repeat split; try reflexivity; apply U.
Qed.
Theorem C89_scale_invariance :
  forall (G : R -> R -> R) (gam : xr -> xr -> xr) (D D' : arr2 xr) n d a metric test M M',
    gamma_family G gam -> finite_off D n d -> finite_off D' n (fun i j => a * d i j)%R -> (0 < a)%R ->
    (forall k, k < n -> 2 <= length (seen d (training n test) k) /\
       (0 < rmean (seen d (training n test) k))%R /\ rvar1 (seen d (training n test) k) <> 0%R) ->
    gammai xsum gam D metric test = Ok M -> gammai xsum gam D' metric test = Ok M' ->
    eq2 M M'.
Proof.
  intros G gam D D' n d a metric test M M' GF HD HD' Ha HL H H'.
  apply gammai_inv in H as (_ & _ & ->). apply gammai_inv in H' as (_ & _ & ->).
  destruct (gammai_core_shape xsum gam metric (training (nrow D) test) D) as (S1 & S2).
  destruct (gammai_core_shape xsum gam metric (training (nrow D') test) D') as (S1' & S2').
  assert (F := HD). destruct F as (R & _ & _). assert (F := HD'). destruct F as (R' & _ & _).
  split; [congruence|]. split; [congruence|]. rewrite S1, S2, R, R', <- (train_rows_spec n test). intros i j Hi Hj.
  assert (HL1 : forall k, k < n -> 2 <= length (seen d (training n test) k) /\ (0 < rmean (seen d (training n test) k))%R)
    by (intros k Hk; destruct (HL k Hk) as (A & B & _); auto).
  assert (HL2 : forall k, k < n -> 2 <= length (seen (fun i j => a * d i j)%R (training n test) k) /\
                 (0 < rmean (seen (fun i j => a * d i j)%R (training n test) k))%R).
  { intros k Hk. destruct (HL1 k Hk) as (A & B).
    rewrite (seen_affine d (fun i j => a * d i j)%R a 0 n (training n test) k (training_lt n test) Hk) by (intros; ring). rewrite map_length. split; [exact A|].
    rewrite rmean_affine by (destruct (seen d (training n test) k); [cbn in A; lia|discriminate]). nra. }
  rewrite (gammai_core_at G gam GF D n d HD metric test i j HL1 Hi Hj).
  rewrite (gammai_core_at G gam GF D' n _ HD' metric test i j HL2 Hi Hj).
  destruct (Nat.eqb_spec i j) as [|E]; [reflexivity|]. f_equal.
  destruct (i <? j); symmetry; (apply (gaval_scale G d _ a n);
    [apply training_lt|exact Ha|reflexivity|assumption|assumption|congruence|exact HL]).
Qed.

(** ** C90 *)
Theorem C90_sparse_gaussian :
  forall (Phi : R -> R) (cdf sf : xr -> xr -> xr -> xr) (S : smat xr) n w metric ss mn,
    normal_family Phi cdf sf -> srow S = n -> scol S = n -> 0 < n ->
    similarities (stored S) n w -> valid_metric metric = true ->
    let m j := rmean (known w (seq 0 n) j) in
    let s j := rstd (known w (seq 0 n) j) in
    exists M, gaussi_csr xsum cdf S metric ss mn None = Ok M /\ srow M = n /\ scol M = n /\
      (forall i, i < n -> sval M i i = XFin 1) /\
      (forall i j, i < n -> j < n -> sval M i j = sval M j i) /\
      (forall i j, i < n -> j < n -> i <> j ->
         match w i j with
         | None => sval M i j = XFin 0
         | Some x =>
             (s i <> 0%R -> s j <> 0%R ->
                sval M i j = XFin (Phi ((x - m i) / s i) * Phi ((x - m j) / s j))%R) /\
             (s i = 0%R \/ s j = 0%R -> sval M i j = XNaN)
         end).
Proof.
  intros Phi cdf sf S n w metric ss mn NF HR HC Hn HS Hv m s.
  destruct (gaussi_csr_ok cdf S n w HR HC HS metric ss mn None Hn Hv) as (M & E & E').
  exists M. split; [exact E|]. destruct (gaussi_sparse_shape cdf S n HR HC None M E') as (A & B).
  split; [exact A|]. split; [exact B|].
  split; [intros i Hi; exact (gaussi_sparse_diag cdf S n None M i E' Hi)|].
  split.
  { intros i j Hi Hj. destruct (Nat.eq_dec i j) as [->|Hne]; [reflexivity|].
    rewrite !(gaussi_sparse_at cdf S n HR HC None M) by auto. now rewrite (Nat.min_comm j i), (Nat.max_comm j i). }
  assert (SD : forall i j, i < n -> j < n -> i < j ->
    match w i j with
    | None => gis_value xsum cdf S (seq 0 n) i j = XFin 0
    | Some x => (s i <> 0%R -> s j <> 0%R ->
                gis_value xsum cdf S (seq 0 n) i j = XFin (Phi ((x - m i) / s i) * Phi ((x - m j) / s j))%R) /\
             (s i = 0%R \/ s j = 0%R -> gis_value xsum cdf S (seq 0 n) i j = XNaN)
    end).
  { intros i j Hi Hj Hij. destruct (w i j) as [x|] eqn:Ew; [|apply (gis_value_none cdf S n w); auto; lia].
    rewrite (gis_value_some cdf S n w HS (seq 0 n) i j x Hi Hj ltac:(lia) Ew).
    assert (Ew' : w j i = Some x) by (destruct HS as (_ & _ & C); destruct (C i j Hi Hj) as (<- & _); exact Ew).
    assert (Ki : known w (seq 0 n) i <> []) by (apply (known_ne w (seq 0 n) j i x); [apply in_seq; lia|lia|exact Ew']).
    assert (Kj : known w (seq 0 n) j <> []) by (apply (known_ne w (seq 0 n) i j x); [apply in_seq; lia|lia|exact Ew]).
    assert (T : forall l, In l (seq 0 n) -> l < n) by (intros l Hl; apply in_seq in Hl; lia).
    rewrite !(sp_mu_in S n w), !(sp_sd_in S n w) by (auto; try apply seq_NoDup; apply in_seq; lia).
    fold (m i) (m j) (s i) (s j). destruct NF as (_ & F & Z & _).
    assert (P : forall k, s k <> 0%R -> (0 < s k)%R) by (intros k Hk; pose proof (rstd_nonneg (known w (seq 0 n) k)) as [|Q]; [assumption|exfalso; apply Hk; symmetry; exact Q]).
    split.
    - intros Hsi Hsj. destruct (F x (m i) (s i) (P i Hsi)) as (-> & _), (F x (m j) (s j) (P j Hsj)) as (-> & _). reflexivity.
    - intros [-> | ->].
      + destruct (Z (XFin x) (XFin (m i))) as (-> & _). destruct (cdf (XFin x) (XFin (m j)) (XFin (s j))); reflexivity.
      + destruct (Z (XFin x) (XFin (m j))) as (-> & _). destruct (cdf (XFin x) (XFin (m i)) (XFin (s i))); reflexivity. }
  intros i j Hi Hj Hne. rewrite (gaussi_sparse_at cdf S n HR HC None M) by auto. cbn [training].
  destruct (Nat.lt_trichotomy i j) as [L|[L|L]]; [|congruence|].
  - rewrite Nat.min_l, Nat.max_r by lia. exact (SD i j Hi Hj L).
  - rewrite Nat.min_r, Nat.max_l by lia. specialize (SD j i Hj Hi L).
    assert (Es : w j i = w i j) by (destruct HS as (_ & _ & C); destruct (C i j Hi Hj) as (-> & _); reflexivity).
    rewrite Es in SD. destruct (w i j) as [x|]; [|exact SD]. destruct SD as (S1 & S2). split.
    + intros Hsi Hsj. rewrite (S1 Hsj Hsi). f_equal. ring.
    + intros [H|H]; apply S2; tauto.
Qed.

(** ** C91: all similarities known: the same as for the dense matrix *)
Theorem C91_sparse_equals_dense :
  forall (Phi : R -> R) (cdf sf : xr -> xr -> xr -> xr) (S : smat xr) (D : arr2 xr) n d ss mn M M',
    normal_family Phi cdf sf -> srow S = n -> scol S = n -> 2 <= n ->
    finite_off D n d ->
    similarities (stored S) n (fun i j => Some (if i =? j then 1%R else d i j)) ->
    (forall j, j < n -> rstd (seen d (seq 0 n) j) <> 0%R) ->
    gaussi_csr xsum cdf S "similarity" ss mn None = Ok M ->
    gaussi xsum cdf sf D "similarity" 0 None None = Ok M' ->
    forall i j, i < n -> j < n -> sval M i j = at2 M' i j.
Proof.
  intros Phi cdf sf S D n d ss mn M M' NF HR HC Hn HD HS Hs H H' i j Hi Hj.
  set (w := fun i j => Some (if i =? j then 1%R else d i j)) in *.
  destruct (C90_sparse_gaussian Phi cdf sf S n w "similarity" ss mn NF HR HC ltac:(lia) HS eq_refl) as (M1 & E1 & _ & _ & Dg & _ & V).
  rewrite H in E1. injection E1 as <-.
  destruct (C82_gaussian_mutual_proximity Phi cdf sf D n d "similarity" None NF HD eq_refl) as (M2 & E2 & _ & _ & Dg' & V').
  { cbn. rewrite seq_length. exact Hn. }
  rewrite H' in E2. injection E2 as <-.
  destruct (Nat.eq_dec i j) as [->|Hne]; [rewrite Dg, Dg' by assumption; reflexivity|].
  assert (K : forall k, k < n -> known w (seq 0 n) k = seen d (seq 0 n) k).
  { intros k Hk. unfold known, seen, w. generalize (seq 0 n). induction l as [|l ls IH]; [reflexivity|].
    cbn [flat_map filter]. rewrite IH. destruct (Nat.eqb_spec l k) as [->|E]; [reflexivity|].
    cbn [negb map app]. reflexivity. }
  specialize (V i j Hi Hj Hne). unfold w in V at 1. cbv beta iota zeta in V.
  destruct V as (V1 & _). rewrite !K in V1 by assumption. rewrite V1 by (now apply Hs). clear V1.
  destruct (Nat.eqb_spec i j); [contradiction|].
  assert (SP : forall k, k < n -> spread (seen d (seq 0 n) k) = rstd (seen d (seq 0 n) k)).
  { intros k Hk. unfold spread. destruct (Req_EM_T (rstd (seen d (seq 0 n) k)) 0) as [E|E]; [|reflexivity]. exfalso. now apply (Hs k Hk). }
  destruct HS as (_ & _ & Sy). destruct (Sy i j Hi Hj) as (Es & _). unfold w in Es.
  destruct (Nat.eqb_spec i j); [contradiction|]. destruct (Nat.eqb_spec j i); [congruence|]. injection Es as Es.
  destruct (Nat.lt_trichotomy i j) as [L|[L|L]]; [|congruence|].
  - destruct (V' i j L Hj) as (v & -> & _ & _ & ->). cbn [training]. rewrite !SP by assumption. reflexivity.
  - destruct (V' j i L Hi) as (v & _ & -> & _ & ->). cbn [training]. rewrite !SP by assumption. rewrite <- Es. f_equal. cbn. unfold both_below. ring.
Qed.

(** ** C92 *)
Theorem C92_sparse_ignores_metric_and_min_nnz :
  forall (V : Type) (N : Num V) (vsum : list V -> V) (cdf : V -> V -> V -> V) (gam : V -> V -> V) (r32 : V -> V)
         (S : smat V) test mn,
    (forall ss mn', gaussi_csr vsum cdf S "distance" ss mn test = gaussi_csr vsum cdf S "similarity" 0 mn' test) /\
    (forall mn', gammai_csr vsum gam r32 S "distance" mn' test = gammai_csr vsum gam r32 S "similarity" mn' test).
Proof. intros. split; reflexivity. Qed.
(** what that means for distances: they are rescaled as if they were similarities,
    a real distance matrix (zero self distances) is refused by the check of the
    self similarities only, and the empiric variant refuses both *)
Theorem C92_distances_rescaled_as_similarities :
  forall (Phi : R -> R) (cdf sf : xr -> xr -> xr -> xr) (gam : xr -> xr -> xr) (r32 : xr -> xr)
         (S : smat xr) n ss mn k,
    normal_family Phi cdf sf -> srow S = n -> scol S = n -> 0 < n ->
    (forall w, similarities (stored S) n w ->
       exists M, gaussi_csr xsum cdf S "distance" ss mn None = Ok M /\
         (forall i, i < n -> sval M i i = XFin 1) /\
         forall i j x, i < n -> j < n -> i <> j -> w i j = Some x ->
           let z l := ((x - rmean (known w (seq 0 n) l)) / rstd (known w (seq 0 n) l))%R in
           rstd (known w (seq 0 n) i) <> 0%R -> rstd (known w (seq 0 n) j) <> 0%R ->
           sval M i j = XFin (both_below (Phi (z i)) (Phi (z j)))) /\
    (forall metric test i, i < n -> sval S i i = XFin 0 -> valid_metric metric = true ->
       gaussi_csr xsum cdf S metric ss mn test = Raise ValueError /\
       gammai_csr xsum gam r32 S metric k test = Raise ValueError) /\
    (forall t r, mp_empiric_sparse S "distance" t k r -> r = Raise ValueError).
Proof.
  intros Phi cdf sf gam r32 S n ss mn k NF HR HC Hn. split; [|split].
  - intros w HS.
    destruct (C90_sparse_gaussian Phi cdf sf S n w "distance" ss mn NF HR HC Hn HS eq_refl) as (M & E & _ & _ & D & _ & V).
    exists M. split; [exact E|]. split; [exact D|]. intros i j x Hi Hj Hne Ew z Si Sj.
    specialize (V i j Hi Hj Hne). rewrite Ew in V. exact (proj1 V Si Sj).
  - intros metric test i Hi E0 Hv.
    assert (U : unit_diagonal S = false).
    { unfold unit_diagonal. apply andb_false_intro2. destruct (forallb _ _) eqn:F; [|reflexivity].
      rewrite forallb_forall in F. specialize (F i). rewrite E0 in F. cbn in F.
      rewrite HR in F. specialize (F (proj2 (in_seq n 0 i) ltac:(lia))). destruct (Req_EM_T 0 1); [lra|discriminate]. }
    assert (Sh : check_distance_matrix_shape (Sparse (srow S) (scol S)) = Ok tt).
    { unfold check_distance_matrix_shape. rewrite HR, HC. cbn. now rewrite Nat.eqb_refl. }
    unfold gaussi_csr, gammai_csr, gaussi_sparse, gammai_sparse.
    rewrite Sh, (proj2 (check_metric_ok metric) Hv), U. split; reflexivity.
  - intros t r H. inversion H as [C|e Sq C|Sq C|Sq C|data Sq C]; subst; try congruence.
    discriminate C.
Qed.

(** ** C93 *)
Theorem C93_held_out_sparse_is_nan :
  forall (Phi : R -> R) (cdf sf : xr -> xr -> xr -> xr) (S : smat xr) n w metric ss mn test M i j x,
    normal_family Phi cdf sf -> srow S = n -> scol S = n -> similarities (stored S) n w ->
    gaussi_csr xsum cdf S metric ss mn test = Ok M ->
    i < n -> j < n -> i <> j -> w i j = Some x ->
    (** j is held out, and its similarities to the training objects are small *)
    ~ In j (training n test) -> known w (training n test) j <> [] ->
    (rsum (map (fun x => x * x) (known w (training n test) j)) < 1)%R ->
    sval M i j = XNaN /\ sval M j i = XNaN.
Proof.
  intros Phi cdf sf S n w metric ss mn test M i j x NF HR HC HS H Hi Hj Hne Ew Ho Kn Hq.
  assert (H' : gaussi_sparse xsum cdf S test = Ok M).
  { unfold gaussi_csr in H. apply bind_ok_inv in H as ([] & _ & H). apply bind_ok_inv in H as ([] & _ & H). exact H. }
  assert (T : forall l, In l (training n test) -> l < n) by apply training_lt.
  assert (SD : sp_sd xsum S (training n test) j = XNaN)
    by (apply (sp_sd_out S n w); auto; apply training_NoDup).
  assert (Ew' : w j i = Some x) by (destruct HS as (_ & _ & C); destruct (C i j Hi Hj) as (<- & _); exact Ew).
  assert (Z : forall m, cdf (XFin x) m XNaN = XNaN) by (intros m; destruct NF as (_ & _ & _ & Z); apply Z).
  rewrite !(gaussi_sparse_at cdf S n HR HC test M) by auto. rewrite (Nat.min_comm j i), (Nat.max_comm j i).
  assert (G : gis_value xsum cdf S (training n test) (Nat.min i j) (Nat.max i j) = XNaN); [|split; exact G].
  destruct (Nat.lt_trichotomy i j) as [L|[L|L]]; [|congruence|].
  - rewrite Nat.min_l, Nat.max_r by lia. rewrite (gis_value_some cdf S n w HS _ i j x) by auto. rewrite SD, Z.
    destruct (cdf (XFin x) (sp_mu xsum S (training n test) i) (sp_sd xsum S (training n test) i)); reflexivity.
  - rewrite Nat.min_r, Nat.max_l by lia. rewrite (gis_value_some cdf S n w HS _ j i x) by auto. now rewrite SD, Z.
Qed.

(** ** C94 *)
Theorem C94_sparse_gamma_depends_on_order :
  forall (V : Type) (N : Num V) (vsum : list V -> V) (gam : V -> V -> V) (r32 : V -> V) (S : smat V)
         metric m test M i j,
    gammai_csr vsum gam r32 S metric m test = Ok M ->
    (** i has enough neighbours, j has not *)
    m < row_nnz S i -> row_nnz S j <= m ->
    (** from j: the original similarities *)
    (forall x, stored M j x = let v := r32 (sval S j x) in if nonzero v then Some v else None) /\
    (** to j: nothing if j comes first, a rescaled value if i does *)
    (j < i -> stored M i j = None) /\
    (i < j -> forall p, gas_value vsum gam S (training (srow S) test) i j = p ->
       nonzero (r32 p) = true -> nonzero (nadd (r32 p) n0) = true ->
       stored M i j = Some (r32 (nadd (r32 p) n0))).
Proof.
  intros V N vsum gam r32 S metric m test M i j H Hi Hj.
  unfold gammai_csr in H. apply bind_ok_inv in H as ([] & _ & H). apply bind_ok_inv in H as ([] & _ & H).
  unfold gammai_sparse in H. apply bind_ok_inv in H as ([] & _ & H). rewrite train_rows_spec in H. injection H as <-.
  split; [intros x; now apply sp_finish_kept|].
  split; [intros L; now apply sp_finish_later|].
  intros L p Ep N1 N2. rewrite sp_finish_rich by assumption. rewrite Ep, N1, N2. reflexivity.
Qed.
(** the rescaled values, in exact arithmetic (float32 rounding left out) *)
Theorem C94_sparse_gamma_values :
  forall (G : R -> R -> R) (gam : xr -> xr -> xr) (S : smat xr) n w metric m M i j,
    gamma_family G gam -> srow S = n -> similarities (stored S) n w ->
    gammai_csr xsum gam (fun x => x) S metric m None = Ok M ->
    i < j -> j < n -> m < row_nnz S i ->
    (forall k, k = i \/ k = j -> 2 <= length (known w (seq 0 n) k) /\
       (0 < rmean (known w (seq 0 n) k))%R /\ rvar1 (known w (seq 0 n) k) <> 0%R) ->
    let F k x := G (gamma_shape (known w (seq 0 n) k)) (Rmax 0 x / gamma_scale (known w (seq 0 n) k))%R in
    let x := match w i j with Some x => x | None => 0%R end in
    sval M i j = XFin (F i x * F j x)%R /\
    (m < row_nnz S j -> sval M j i = XFin (F i x * F j x)%R) /\
    (row_nnz S j <= m -> sval M j i = XFin x).
Proof.
  intros G gam S n w metric m M i j GF HR HS H Hij Hj Hi HK F x.
  unfold gammai_csr in H. apply bind_ok_inv in H as ([] & _ & H). apply bind_ok_inv in H as ([] & _ & H).
  unfold gammai_sparse in H. apply bind_ok_inv in H as ([] & _ & H). rewrite HR, train_rows_spec in H. injection H as <-.
  cbn [training]. assert (T : forall l, In l (seq 0 n) -> l < n) by (intros l Hl; apply in_seq in Hl; lia).
  assert (GV : gas_value xsum gam S (seq 0 n) i j = XFin (F i x * F j x)%R).
  { apply (gas_value_xr G gam GF S n w (seq 0 n) HS T (seq_NoDup n 0) i j ltac:(lia) Hj).
    intros k Hk. split; [apply in_seq; lia|]. now apply HK. }
  split; [|split].
  - unfold sval. rewrite sp_finish_rich by assumption. rewrite GV. apply lil_oval.
  - intros Hr. unfold sval. rewrite sp_finish_rich_mirror by assumption. rewrite GV. apply lil_oval'.
  - intros Hp. unfold sval. rewrite sp_finish_kept by assumption.
    rewrite (sval_w S n w HS) by lia. assert (Es : w j i = w i j) by (destruct HS as (_ & _ & C); destruct (C i j ltac:(lia) Hj) as (-> & _); reflexivity).
    rewrite Es. unfold x. destruct (w i j) as [y|]; unfold nonzero; cbn; [destruct (Req_EM_T y 0) as [->|]; reflexivity|].
    destruct (Req_EM_T 0 0); [reflexivity|lra].
Qed.

(** ** The hypotheses can be met *)
Definition ratio_gam (a x : xr) : xr :=
  match a, x with
  | XFin a, XFin x => if Rlt_dec 0 a then if Rle_dec 0 x then XFin (x / (1 + x)) else XNaN else XNaN
  | _, _ => XNaN
  end.
Lemma ratio_family : gamma_family (fun _ x => x / (1 + x))%R ratio_gam.
Proof.
  split; [|reflexivity]. intros a x Ha Hx. unfold ratio_gam.
  destruct (Rlt_dec 0 a); [|contradiction]. destruct (Rle_dec 0 x); [|contradiction]. split; [reflexivity|].
  assert (0 < / (1 + x))%R by (apply Rinv_0_lt_compat; lra). split; [unfold Rdiv; nra|].
  apply (Rmult_le_reg_r (1 + x)); [lra|]. unfold Rdiv. rewrite Rmult_assoc, Rinv_l by lra. lra.
Qed.
Lemma line_seen k : k < 4 -> 2 <= length (seen line_d (training 4 None) k) /\ (0 < rmean (seen line_d (training 4 None) k))%R.
Proof.
  intros Hk. destruct k as [|[|[|[|k]]]]; [| | | |lia]; (split; [cbn; lia|]);
  cbn [training seen seq filter map Nat.eqb negb]; unfold line_d, rmean; cbn [nth length rsum fold_right];
  (apply Rmult_lt_0_compat; [unfold Rabs; repeat destruct Rcase_abs; lra|apply Rinv_0_lt_compat, lt_0_INR; lia]).
Qed.
Example C89_case : exists M, gammai xsum ratio_gam line_D "distance" None = Ok M /\ at2 M 2 2 = XFin 0.
Proof.
  destruct (C89_gamma_mutual_proximity _ ratio_gam line_D 4 line_d "distance" None ratio_family line_finite eq_refl line_seen)
    as (M & E & _ & _ & Dg & _).
  exists M. split; [exact E|]. exact (Dg 2 ltac:(lia)).
Qed.
Lemma rvar1_zero l : 2 <= length l -> rvar1 l = 0%R -> rstd l = 0%R.
Proof.
  intros L H. unfold rvar1 in H. unfold rstd, rmean at 1. rewrite map_length.
  assert (P : (INR (length l - 1) <> 0)%R) by (apply not_0_INR; lia).
  apply Rmult_integral in H as [H|H]; [|exfalso; now apply (Rinv_neq_0_compat _ P)].
  rewrite H. unfold Rdiv. rewrite Rmult_0_l. apply sqrt_0.
Qed.
Example C89_scale_case : exists M M',
  gammai xsum ratio_gam line_D "distance" None = Ok M /\
  gammai xsum ratio_gam (Arr2 4 4 (fun i j => XFin (3 * line_d i j))) "distance" None = Ok M' /\ eq2 M M'.
Proof.
  eexists. eexists. split; [reflexivity|]. split; [reflexivity|].
  apply (C89_scale_invariance (fun _ x => x / (1 + x))%R ratio_gam line_D (Arr2 4 4 (fun i j => XFin (3 * line_d i j))) 4 line_d 3 "distance" None);
    [exact ratio_family|exact line_finite|repeat split|lra| |reflexivity|reflexivity].
  intros k Hk. destruct (line_seen k Hk) as (A & B). split; [exact A|]. split; [exact B|].
  intros C. apply (line_spread k Hk). now apply rvar1_zero.
Qed.

(** three objects; 0-1: 1/2, 0-2: 1/4; 1-2 unknown *)
Definition tri_w (i j : nat) : option R :=
  match i, j with
  | 0, 1 | 1, 0 => Some (/ 2)%R
  | 0, 2 | 2, 0 => Some (/ 4)%R
  | 1, 2 | 2, 1 => None
  | _, _ => Some 1%R
  end.
Definition tri_S : smat xr := SMat 3 3 (fun i j => option_map XFin (tri_w i j)).
Lemma tri_ok : similarities (stored tri_S) 3 tri_w.
Proof.
  split; [reflexivity|]. split.
  - intros [|[|[|i]]] Hi; try reflexivity; lia.
  - intros [|[|[|i]]] [|[|[|j]]] Hi Hj; try lia; (split; [reflexivity|]); cbn; intros C; try discriminate; injection C; lra.
Qed.
(** objects 1 and 2 have one known neighbour: no spread, NaN *)
Example C90_case : exists M,
  gaussi_csr xsum lcdf tri_S "similarity" 0 30 None = Ok M /\
  sval M 1 2 = XFin 0 /\ sval M 0 1 = XNaN /\ sval M 2 2 = XFin 1.
Proof.
  destruct (C90_sparse_gaussian logistic lcdf lsf tri_S 3 tri_w "similarity" 0 30 logistic_family eq_refl eq_refl ltac:(lia) tri_ok eq_refl)
    as (M & E & _ & _ & Dg & _ & V).
  exists M. split; [exact E|]. split; [exact (V 1 2 ltac:(lia) ltac:(lia) ltac:(lia))|].
  split; [|exact (Dg 2 ltac:(lia))].
  destruct (V 0 1 ltac:(lia) ltac:(lia) ltac:(lia)) as (_ & N). apply N. right.
  change (known tri_w (seq 0 3) 1) with [(/ 2)%R]. unfold rstd, rmean. cbn [map length rsum fold_right].
  replace (_ / INR 1)%R with 0%R; [apply sqrt_0|]. cbn. field.
Qed.
(** similarities of four points on a line *)
Definition line_s (i j : nat) : R := (/ (1 + line_d i j))%R.
Lemma line_s_pos i j : (0 < line_s i j)%R.
Proof. unfold line_s. apply Rinv_0_lt_compat. unfold line_d. pose proof (Rabs_pos (nth i [0; 1; 3; 6]%R 0%R - nth j [0; 1; 3; 6]%R 0%R)). lra. Qed.
Lemma line_s_spread j : j < 4 -> rstd (seen line_s (seq 0 4) j) <> 0%R.
Proof.
  intros Hj. apply Rgt_not_eq.
  destruct j as [|[|[|[|j]]]]; [| | | |lia]; cbn [seen seq filter map Nat.eqb negb]; unfold line_s, line_d; cbn [nth];
    apply rstd_pos; intros C; apply (f_equal Rinv) in C; rewrite !Rinv_inv in C; revert C; unfold Rabs; repeat destruct Rcase_abs; lra.
Qed.
Definition line_w (i j : nat) : option R := Some (if i =? j then 1%R else line_s i j).
Definition line_S : smat xr := SMat 4 4 (fun i j => option_map XFin (line_w i j)).
Lemma line_w_ok : similarities (stored line_S) 4 line_w.
Proof.
  split; [reflexivity|]. split.
  - intros i _. unfold line_w. now rewrite Nat.eqb_refl.
  - intros i j _ _. unfold line_w. rewrite (Nat.eqb_sym j i). split.
    + destruct (i =? j); [reflexivity|]. unfold line_s, line_d. now rewrite Rabs_minus_sym.
    + intros C. injection C as C. destruct (i =? j); [lra|]. pose proof (line_s_pos i j). lra.
Qed.
Example C91_case : exists M M',
  gaussi_csr xsum lcdf line_S "similarity" 0 30 None = Ok M /\
  gaussi xsum lcdf lsf (Arr2 4 4 (fun i j => XFin (line_s i j))) "similarity" 0 None None = Ok M' /\
  sval M 1 3 = at2 M' 1 3.
Proof.
  destruct (gaussi_csr_ok lcdf line_S 4 line_w eq_refl eq_refl line_w_ok "similarity" 0 30 None ltac:(lia) eq_refl) as (M & E & _).
  destruct (C88_sample_size_is_unusable xr Num_xr xsum lcdf lsf (Arr2 4 4 (fun i j => XFin (line_s i j))) "similarity" 0 None eq_refl eq_refl) as (_ & (M' & E') & _).
  exists M, M'. split; [exact E|]. split; [exact E'|].
  apply (C91_sparse_equals_dense logistic lcdf lsf line_S (Arr2 4 4 (fun i j => XFin (line_s i j))) 4 line_s 0 30 M M' logistic_family);
    try reflexivity; try lia; try exact E; try exact E'; [repeat split|exact line_w_ok|exact line_s_spread].
Qed.
(** "distance" is accepted, although the documentation says it is not supported *)
Example C92_case : exists M, gaussi_csr xsum lcdf tri_S "distance" 0 30 None = Ok M.
Proof.
  destruct (gaussi_csr_ok lcdf tri_S 3 tri_w eq_refl eq_refl tri_ok "distance" 0 30 None ltac:(lia) eq_refl) as (M & E & _). now exists M.
Qed.
(** hold out object 0 *)
Example C93_case : exists M,
  gaussi_csr xsum lcdf tri_S "similarity" 0 30 (Some [0%Z]) = Ok M /\ sval M 0 1 = XNaN.
Proof.
  destruct (gaussi_csr_ok lcdf tri_S 3 tri_w eq_refl eq_refl tri_ok "similarity" 0 30 (Some [0%Z]) ltac:(lia) eq_refl) as (M & E & _).
  exists M. split; [exact E|].
  apply (C93_held_out_sparse_is_nan logistic lcdf lsf tri_S 3 tri_w "similarity" 0 30 (Some [0%Z]) M 1 0 (/ 2)%R logistic_family);
    try reflexivity; try lia; try exact tri_ok; try exact E.
  - cbn. intros [H|[H|[]]]; discriminate.
  - discriminate.
  - change (known tri_w (training 3 (Some [0%Z])) 0) with [/ 2; / 4]%R. cbn. lra.
Qed.
(** five objects; object a knows only the objects 1 and 2, with min_nnz = 3 it has
    too few neighbours; the others know each other.  Whether object 1 keeps a
    similarity to object a depends on the position of a. *)
Definition star_w (a i j : nat) : option R :=
  if i =? j then Some 1%R
  else if ((i =? a) && negb ((j =? 1) || (j =? 2))) || ((j =? a) && negb ((i =? 1) || (i =? 2))) then None
  else Some (if (i =? 1) || (j =? 1) then (if (i =? 2) || (j =? 2) then / 4 else / 2)%R else (/ 3)%R).
Definition star_S (a : nat) : smat xr := SMat 5 5 (fun i j => option_map XFin (star_w a i j)).
Lemma star_ok a : a = 0 \/ a = 4 -> similarities (stored (star_S a)) 5 (star_w a).
Proof.
  intros Ha. split; [reflexivity|]. split; [intros i _; unfold star_w; now rewrite Nat.eqb_refl|].
  intros i j _ _. unfold star_w. rewrite (Nat.eqb_sym j i). split.
  - destruct (i =? j); [reflexivity|]. rewrite (orb_comm ((j =? a) && _)).
    destruct (((i =? a) && negb ((j =? 1) || (j =? 2))) || ((j =? a) && negb ((i =? 1) || (i =? 2)))); [reflexivity|].
    rewrite (orb_comm (j =? 1)), (orb_comm (j =? 2)). reflexivity.
  - destruct (i =? j); [intros C; injection C; lra|].
    destruct (((i =? a) && negb ((j =? 1) || (j =? 2))) || ((j =? a) && negb ((i =? 1) || (i =? 2)))); [discriminate|].
    destruct ((i =? 1) || (j =? 1)); [destruct ((i =? 2) || (j =? 2))|]; intros C; injection C; lra.
Qed.
Lemma star_total a : a = 0 \/ a = 4 ->
  exists M, gammai_csr xsum ratio_gam (fun x => x) (star_S a) "similarity" 3 None = Ok M.
Proof.
  intros Ha. unfold gammai_csr. cbn [srow scol star_S]. change (check_distance_matrix_shape (Sparse 5 5)) with (Ok tt).
  cbn [bind]. change (check_valid_metric_parameter "similarity") with (Ok tt). cbn [bind]. unfold gammai_sparse.
  rewrite (unit_diag_ok (star_S a) 5 (star_w a) eq_refl eq_refl (star_ok a Ha)) by lia. eexists. reflexivity.
Qed.
Lemma rvar1_pos a b l : a <> b -> rvar1 (a :: b :: l) <> 0%R.
Proof.
  intros H C. apply rvar1_zero in C; [|cbn; lia]. pose proof (rstd_pos a b l H). lra.
Qed.
Example C94_case : exists M M' v,
  gammai_csr xsum ratio_gam (fun x => x) (star_S 0) "similarity" 3 None = Ok M /\
  gammai_csr xsum ratio_gam (fun x => x) (star_S 4) "similarity" 3 None = Ok M' /\
  stored (star_S 0) 1 0 = stored (star_S 4) 1 4 /\
  stored M 1 0 = None /\ sval M' 1 4 = XFin v /\ (0 < v)%R.
Proof.
  destruct (star_total 0 ltac:(lia)) as (M & E), (star_total 4 ltac:(lia)) as (M' & E').
  assert (KV : forall k, k = 1 \/ k = 4 -> 2 <= length (known (star_w 4) (seq 0 5) k) /\
       (0 < rmean (known (star_w 4) (seq 0 5) k))%R /\ rvar1 (known (star_w 4) (seq 0 5) k) <> 0%R).
  { intros k [-> | ->].
    - change (known (star_w 4) (seq 0 5) 1) with [/ 2; / 4; / 2; / 2]%R.
      split; [cbn; lia|]. split; [unfold rmean; cbn; lra|]. apply rvar1_pos. lra.
    - change (known (star_w 4) (seq 0 5) 4) with [/ 2; / 3]%R.
      split; [cbn; lia|]. split; [unfold rmean; cbn; lra|]. apply rvar1_pos. lra. }
  destruct (C94_sparse_gamma_values _ ratio_gam (star_S 4) 5 (star_w 4) "similarity" 3 M' 1 4 ratio_family eq_refl (star_ok 4 ltac:(lia)) E') as (V & _);
    [lia|lia|cbv; lia|exact KV|].
  eexists M, M', _. split; [exact E|]. split; [exact E'|]. split; [reflexivity|]. split; [|split; [exact V|]].
  - destruct (C94_sparse_gamma_depends_on_order _ _ xsum ratio_gam (fun x => x) (star_S 0) "similarity" 3 None M 1 0 E) as (_ & A & _);
      [cbv; lia|cbv; lia|]. apply A. lia.
  - cbn [star_w Nat.eqb orb andb negb].
    assert (P : forall k, k = 1 \/ k = 4 -> (0 < Rmax 0 (/ 2) / gamma_scale (known (star_w 4) (seq 0 5) k))%R).
    { intros k Hk. destruct (KV k Hk) as (L & Pm & Vn). apply Rmult_lt_0_compat.
      - apply Rlt_le_trans with (/ 2)%R; [lra|apply Rmax_r].
      - apply Rinv_0_lt_compat. unfold gamma_scale. apply Rmult_lt_0_compat; [now apply variance_pos|now apply Rinv_0_lt_compat]. }
    assert (Q : forall y, (0 < y)%R -> (0 < y / (1 + y))%R) by (intros y Hy; apply Rmult_lt_0_compat; [lra|apply Rinv_0_lt_compat; lra]).
    apply Rmult_lt_0_compat; apply Q, P; tauto.
Qed.

Print Assumptions C89_gamma_mutual_proximity.
Print Assumptions C89_scale_invariance.
Print Assumptions C90_sparse_gaussian.
Print Assumptions C91_sparse_equals_dense.
Print Assumptions C92_sparse_ignores_metric_and_min_nnz.
Print Assumptions C93_held_out_sparse_is_nan.
Print Assumptions C94_sparse_gamma_depends_on_order.
Print Assumptions C94_sparse_gamma_values.
Print Assumptions C92_distances_rescaled_as_similarities.
