(** Properties C27-C31: local_scaling (local_scaling.py:174-311).

    Exact-number statements use [xexp], the exponential function extended to
    infinities and NaN; float64 statements hold for any function in the place
    of np.exp, with the stated hypotheses. *)
From Coq Require Import String.
From Coq Require Import ZArith Reals Lra List Arith Lia Bool Permutation.
From Verif Require Import Py Num NumT Arr Sort Conc S_Neighbors S_LS M_IO M_Hubness M_SNN M_LS.
From Verif Require Import P_Neighbors P_Hubness P_MPEmpiric P_SNN P_LS P_LS2 P_LS3.
Import ListNotations.
Local Open Scope nat_scope.

(** every call has an outcome, whatever n_jobs is *)
Theorem C29_some_outcome :
  forall {V} {N : Num V} vexp part (D : arr2 V) k metric test cpu n_jobs,
    exists res, local_scaling vexp part D k metric test cpu n_jobs res.
Proof.
  intros V N vexp part D k metric test cpu nj.
  destruct (Z.lt_trichotomy (if (nj =? -1)%Z then Z.of_nat cpu else nj) 1) as [H|[H|H]].
  - eexists. now apply ls_none.
  - eexists. now apply ls_one.
  - destruct (ls_radii part D k metric test) as [rs|e] eqn:E.
    + eexists. eapply ls_pool; [exact H|exact E|apply pool_run_exists|apply pool_run_exists].
    + exists (Raise e). now apply ls_fail.
Qed.

(** ** C29: every schedule of every number of workers gives the serial result *)
Theorem C29_ls_schedule_independent :
  forall (vexp : f64 -> f64) part (D : arr2 f64) k metric test cpu n_jobs n_jobs' res res',
    (1 <= workers cpu n_jobs)%Z -> (1 <= workers cpu n_jobs')%Z ->
    local_scaling vexp part D k metric test cpu n_jobs res ->
    local_scaling vexp part D k metric test cpu n_jobs' res' ->
    agree res res'.
Proof.
  intros vexp part D k metric test cpu nj nj' res res' W W' H H'.
  apply ls_outcome in H; [|exact W]. apply ls_outcome in H'; [|exact W'].
  destruct (ls_radii part D k metric test) as [rs|e].
  - destruct H as (L & -> & R & C & A), H' as (L' & -> & R' & C' & A'). simpl.
    split; [congruence|]. split; [congruence|]. intros i j Hi Hj.
    rewrite R in Hi. rewrite C in Hj. destruct (A i j Hi Hj) as (Ae & An), (A' i j Hi Hj) as (Ae' & An').
    destruct (Nat.eq_dec i j) as [E|E].
    + rewrite Ae, Ae' by assumption. apply same_refl.
    + apply same_trans with (ls_cell vexp metric D (fun a => nth a rs nnan) (Nat.min i j) (Nat.max i j)).
      * apply maybe0_same; auto.
      * rewrite same_sym. apply maybe0_same; auto.
  - subst. reflexivity.
Qed.

Lemma ls_radii_dist {V} {N : Num V} {toX} (CL : CmpLaws V N toX) part (D : arr2 V) k test : part_ok part -> nrow D = ncol D ->
  (forall i j, i < nrow D -> j < nrow D -> i <> j -> nisfin (at2 D i j) = true) ->
  0 < k < length (training (nrow D) test) ->
  exists rs, ls_radii part D (Z.of_nat k) "distance" test = Ok rs /\
    forall i, i < nrow D -> kth_smallest (others D (training (nrow D) test) i) k (nth i rs nnan).
Proof.
  intros PO Hsq Hf Hk. set (n := nrow D) in *.
  assert (A : forall i, i < n -> exists v, ls_radius part (fill_diagonal D ninf) (training n test) (Z.of_nat k - 1) i = Ok v /\
      kth_smallest (others D (training n test) i) k v).
  { intros i Hi. apply (ls_radius_dist CL part PO); [apply training_NoDup| |].
    - intros x Hx. apply others_in in Hx. destruct Hx as (j & Hj & Hne & ->). now apply Hf; auto.
    - split; [lia|]. apply others_len_lt. lia. }
  assert (B : forall l, (forall i, In i l -> i < n) -> exists rs,
     mapM (ls_radius part (fill_diagonal D ninf) (training n test) (Z.of_nat k - 1)) l = Ok rs).
  { induction l as [|i l IH]; intros Hl; [now exists []|]. destruct IH as (rs & E); [intros; apply Hl; now right|].
    destruct (A i (Hl i (or_introl eq_refl))) as (v & Ev & _). exists (v :: rs). cbn [mapM]. now rewrite Ev, E. }
  destruct (B (seq 0 n)) as (rs & E); [intros i Hi; apply in_seq in Hi; lia|].
  assert (ER : ls_radii part D (Z.of_nat k) "distance" test = Ok rs).
  { unfold ls_radii. rewrite (proj2 (check_shape_ok D) Hsq). exact E. }
  exists rs. split; [exact ER|]. intros i Hi. apply ls_radii_inv in ER. destruct ER as (_ & _ & _ & ER).
  destruct (A i Hi) as (v & Ev & K). specialize (ER i Hi).
  change (ls_radius part (fill_diagonal D ninf) (training n test) (Z.of_nat k - 1) i = Ok (nth i rs nnan)) in ER.
  rewrite Ev in ER. injection ER as <-. exact K.
Qed.

Lemma ls_value_dist d a b : (a * b <> 0)%R ->
  ls_val xexp "distance" (XFin d) (XFin a) (XFin b) = XFin (1 - exp (- (d * d) / (a * b))).
Proof.
  intros H. unfold ls_val. simpl. destruct (Req_EM_T (a * b) 0); [contradiction|]. simpl.
  f_equal. replace (-1 * (d * d))%R with (- (d * d))%R by ring. unfold Rminus. reflexivity.
Qed.

Lemma unit_value x : (x <= 0)%R -> (0 <= 1 - exp x < 1)%R.
Proof.
  intros H. pose proof (exp_pos x). destruct (Req_dec x 0) as [->|Hn]; [rewrite exp_0; lra|].
  assert (exp x < exp 0)%R by (apply exp_increasing; lra). rewrite exp_0 in *. lra.
Qed.

(** ** C27: formula, symmetry, diagonal, range; with test_ind the radii come
    from the training points only.  [r i] is the k-th smallest distance of i to
    the other training points. *)
Theorem C27_ls_formula :
  forall part (D : arr2 xr) n k test cpu n_jobs res,
    part_ok part -> nrow D = n -> ncol D = n ->
    (forall i j, i < n -> j < n -> i <> j -> nisfin (at2 D i j) = true) ->
    0 < k < length (training n test) -> (1 <= workers cpu n_jobs)%Z ->
    local_scaling xexp part D (Z.of_nat k) "distance" test cpu n_jobs res ->
    exists L (r : nat -> R), res = Ok L /\ nrow L = n /\ ncol L = n /\
      (forall i, i < n -> kth_smallest (others D (training n test) i) k (XFin (r i))) /\
      (forall i, i < n -> at2 L i i = XFin 0) /\
      (forall i j, i < n -> j < n -> at2 L i j = at2 L j i) /\
      (forall i j, i < j -> j < n -> (r i * r j <> 0)%R ->
         at2 L i j = XFin (1 - exp (- (real_at D i j * real_at D i j) / (r i * r j)))) /\
      (forall i j, i < n -> j < n -> (0 < r i)%R -> (0 < r j)%R ->
         exists v, at2 L i j = XFin v /\ (0 <= v < 1)%R).
Proof.
  intros part D n k test cpu nj res PO Hr Hc Hf Hk Hw H. subst n.
  destruct (ls_radii_dist xr_cmp part D k test PO (eq_sym Hc) Hf Hk) as (rs & E & K).
  apply ls_outcome in H; [|exact Hw]. rewrite E in H. destruct H as (L & -> & R1 & R2 & A).
  assert (Ad : forall i j, i < nrow D -> j < nrow D -> at2 L i j =
     if i =? j then XFin 0 else ls_cell xexp "distance" D (fun a => nth a rs XNaN) (Nat.min i j) (Nat.max i j)).
  { intros i j Hi Hj. destruct (A i j Hi Hj) as (A1 & A2). destruct (Nat.eqb_spec i j) as [Eij|Eij].
    - rewrite (A1 Eij). reflexivity.
    - apply maybe0_xr. now apply A2. }
  set (r := fun i => match nth i rs XNaN with XFin x => x | _ => 0%R end).
  assert (Er : forall i, i < nrow D -> nth i rs XNaN = XFin (r i)).
  { intros i Hi. unfold r. destruct (K i Hi) as (Kin & _). apply others_in in Kin.
    destruct Kin as (j & Hj & Hne & Ej). assert (F := Hf i j Hi Hj (not_eq_sym Hne)). rewrite <- Ej in F.
    change (xisfin (nth i rs XNaN) = true) in F. destruct (nth i rs XNaN); try discriminate. reflexivity. }
  assert (Dr : forall i j, i < nrow D -> j < nrow D -> i <> j -> at2 D i j = XFin (real_at D i j)).
  { intros i j Hi Hj Hne. assert (F := Hf i j Hi Hj Hne). unfold real_at. simpl in F. now destruct (at2 D i j). }
  assert (Cell : forall i j, i < j -> j < nrow D -> (r i * r j <> 0)%R -> at2 L i j =
      XFin (1 - exp (- (real_at D i j * real_at D i j) / (r i * r j)))).
  { intros i j Hij Hj Hne. rewrite Ad by lia. destruct (Nat.eqb_spec i j); [lia|].
    rewrite Nat.min_l, Nat.max_r by lia. unfold ls_cell. rewrite Dr, !Er by lia. now apply ls_value_dist. }
  assert (Sym : forall i j, i < nrow D -> j < nrow D -> at2 L i j = at2 L j i).
  { intros i j Hi Hj. rewrite !Ad by assumption. rewrite (Nat.eqb_sym j i), (Nat.min_comm j i), (Nat.max_comm j i). reflexivity. }
  assert (Rng : forall i j, i < j -> j < nrow D -> (0 < r i)%R -> (0 < r j)%R -> exists v, at2 L i j = XFin v /\ (0 <= v < 1)%R).
  { intros i j Hij Hj Pi Pj. rewrite Cell by (try assumption; nra). eexists. split; [reflexivity|]. apply unit_value.
    assert (0 < r i * r j)%R by (now apply Rmult_lt_0_compat).
    apply (Rmult_le_reg_r (r i * r j)); [assumption|]. unfold Rdiv. rewrite Rmult_assoc, Rinv_l by lra. nra. }
  exists L, r. split; [reflexivity|]. split; [assumption|]. split; [assumption|].
  split; [intros i Hi; rewrite <- Er by assumption; apply (K i Hi)|].
  split; [intros i Hi; rewrite Ad by assumption; now rewrite Nat.eqb_refl|].
  split; [exact Sym|]. split; [exact Cell|].
  intros i j Hi Hj Pi Pj. destruct (Nat.lt_trichotomy i j) as [G|[G|G]].
  - now apply Rng.
  - subst j. exists 0%R. rewrite Ad by assumption. rewrite Nat.eqb_refl. split; [reflexivity|lra].
  - rewrite Sym by assumption. now apply Rng.
Qed.

(** float64: symmetric as values, self distance zero, whatever np.exp returns *)
Theorem C27_ls_float64_symmetric :
  forall (vexp : f64 -> f64) part (D : arr2 f64) k metric test cpu n_jobs L,
    (1 <= workers cpu n_jobs)%Z ->
    local_scaling vexp part D k metric test cpu n_jobs (Ok L) ->
    nrow L = nrow D /\ ncol L = nrow D /\
    (forall i, i < nrow D -> at2 L i i = if is_sim metric then n1 else n0) /\
    (forall i j, i < nrow D -> j < nrow D -> same (at2 L i j) (at2 L j i) = true).
Proof.
  intros vexp part D k metric test cpu nj L Hw H. apply ls_outcome in H; [|exact Hw].
  destruct (ls_radii part D k metric test) as [rs|e]; [|discriminate].
  destruct H as (L' & E & R1 & R2 & A). injection E as <-.
  split; [assumption|]. split; [assumption|]. split.
  - intros i Hi. now rewrite (proj1 (A i i Hi Hi) eq_refl).
  - intros i j Hi Hj. destruct (Nat.eq_dec i j) as [->|Hne]; [apply same_refl|].
    pose proof (proj2 (A i j Hi Hj) Hne) as M1. pose proof (proj2 (A j i Hj Hi) (not_eq_sym Hne)) as M2.
    rewrite (Nat.min_comm j i), (Nat.max_comm j i) in M2.
    eapply same_trans; [apply maybe0_same; exact M1|]. rewrite same_sym. now apply maybe0_same.
Qed.

(** ** C28 (local scaling): no condition on the radii, and k, metric, test_ind
    and the numbers of workers are arbitrary *)
Theorem C28_ls_scale_free :
  forall part part' (D D' : arr2 xr) n (c : R) k metric test cpu n_jobs n_jobs' res res',
    part_ok part -> part_ok part' -> (0 < c)%R ->
    nrow D = n -> nrow D' = n -> ncol D' = ncol D ->
    (forall i j, i < n -> j < n -> i <> j -> nisfin (at2 D i j) = true) ->
    (forall i j, i < n -> j < n -> i <> j -> at2 D' i j = nmul (XFin c) (at2 D i j)) ->
    (1 <= workers cpu n_jobs)%Z -> (1 <= workers cpu n_jobs')%Z ->
    local_scaling xexp part D k metric test cpu n_jobs res ->
    local_scaling xexp part' D' k metric test cpu n_jobs' res' ->
    match res, res' with
    | Ok L, Ok L' => nrow L = nrow L' /\ ncol L = ncol L' /\
        forall i j, i < nrow L -> j < ncol L -> at2 L' i j = at2 L i j
    | Raise e, Raise e' => e = e'
    | _, _ => False
    end.
Proof.
  intros part part' D D' n c k metric test cpu nj nj' res res' PO PO' Hc Hr Hr' Hcol Hf HD W W' H H'. subst n.
  assert (ED : ls_radii part' D' k metric test = ls_radii part' (scale c D) k metric test).
  { unfold ls_radii. cbn [scale nrow ncol]. rewrite Hr', Hcol.
    destruct (check_distance_matrix_shape _) as [[]|]; [|reflexivity]. cbn [bind].
    destruct (check_valid_metric_parameter metric) as [[]|]; [|reflexivity]. cbn [bind].
    apply mapM_ext_in. intros i Hi. apply in_seq in Hi. unfold ls_radius. f_equal. f_equal.
    apply map_ext_in. intros j Hj. rewrite training_eq in Hj. apply training_in in Hj.
    cbn [fill_diagonal scale at2]. destruct (Nat.eqb_spec i j); [reflexivity|]. apply HD; lia. }
  pose proof (ls_radii_scale part part' c D k metric test PO PO' Hc Hf) as S.
  apply ls_outcome in H; [|exact W]. apply ls_outcome in H'; [|exact W']. rewrite ED in H'.
  destruct (ls_radii part D k metric test) as [rs|e].
  - rewrite S in H'. destruct H as (L & -> & R1 & R2 & A), H' as (L' & -> & R1' & R2' & A').
    split; [congruence|]. split; [congruence|]. intros i j Hi Hj. rewrite R1 in Hi. rewrite R2 in Hj.
    destruct (A i j Hi Hj) as (A1 & A2). rewrite <- Hr' in Hi, Hj. destruct (A' i j Hi Hj) as (A1' & A2').
    rewrite Hr' in Hi, Hj. destruct (Nat.eq_dec i j) as [Eij|Eij]; [now rewrite A1, A1'|].
    rewrite (maybe0_xr _ _ (A2 Eij)), (maybe0_xr _ _ (A2' Eij)). unfold ls_cell.
    rewrite HD by lia.
    assert (F : nisfin (at2 D (Nat.min i j) (Nat.max i j)) = true) by (apply Hf; lia).
    destruct (xmul_fin c _ F) as (d & Ed & Ecd). change (@nmul xr Num_xr) with xmul. rewrite Ecd, Ed.
    assert (En : forall a, nth a (map (xmul (XFin c)) rs) nnan = xmul (XFin c) (nth a rs nnan)).
    { intros a. change (@nnan xr Num_xr) with (xmul (XFin c) XNaN) at 1. apply map_nth. }
    rewrite !En. now apply ls_val_scale.
  - rewrite S in H'. now subst.
Qed.

(** ** C30: similarities.  [r i] is the k-th largest similarity of i to other
    points; the values are exp(-s^2/(r_i r_j)), so with equal radii the more
    similar of two points ends up less similar *)
Lemma ls_radii_sim part (D : arr2 xr) k : part_ok part -> nrow D = ncol D ->
  (forall i j, i < nrow D -> j < nrow D -> i <> j -> nisfin (at2 D i j) = true) ->
  0 < k < nrow D ->
  exists rs, ls_radii part D (Z.of_nat k) "similarity" None = Ok rs /\
    forall i, i < nrow D -> kth_largest (others D (seq 0 (nrow D)) i) k (nth i rs nnan).
Proof.
  intros PO Hsq Hf Hk. set (n := nrow D) in *.
  assert (A : forall i, i < n -> exists v, ls_radius part (fill_diagonal D nninf) (seq 0 n) (Z.of_nat n - Z.of_nat k) i = Ok v /\
      kth_largest (others D (seq 0 n) i) k v).
  { intros i Hi.
    replace (Z.of_nat n - Z.of_nat k)%Z with (Z.of_nat (length (seq 0 n)) - Z.of_nat k)%Z by now rewrite seq_length.
    apply (ls_radius_sim xr_cmp part PO); [apply seq_NoDup| |].
    - intros x Hx. apply (others_in D n None) in Hx. destruct Hx as (j & Hj & Hne & ->). now apply Hf; auto.
    - split; [lia|]. apply (others_len_lt D n None). simpl. rewrite seq_length. lia. }
  assert (B : forall l, (forall i, In i l -> i < n) -> exists rs,
     mapM (ls_radius part (fill_diagonal D nninf) (seq 0 n) (Z.of_nat n - Z.of_nat k)) l = Ok rs).
  { induction l as [|i l IH]; intros Hl; [now exists []|]. destruct IH as (rs & E); [intros; apply Hl; now right|].
    destruct (A i (Hl i (or_introl eq_refl))) as (v & Ev & _). exists (v :: rs). cbn [mapM]. now rewrite Ev, E. }
  destruct (B (seq 0 n)) as (rs & E); [intros i Hi; apply in_seq in Hi; lia|].
  assert (ER : ls_radii part D (Z.of_nat k) "similarity" None = Ok rs).
  { unfold ls_radii. rewrite (proj2 (check_shape_ok D) Hsq). exact E. }
  exists rs. split; [exact ER|]. intros i Hi. apply ls_radii_inv in ER. destruct ER as (_ & _ & _ & ER).
  destruct (A i Hi) as (v & Ev & K). specialize (ER i Hi).
  change (ls_radius part (fill_diagonal D nninf) (seq 0 n) (Z.of_nat n - Z.of_nat k) i = Ok (nth i rs nnan)) in ER.
  rewrite Ev in ER. injection ER as ER. change (kth_largest (others D (seq 0 n) i) k (nth i rs XNaN)). rewrite <- ER. exact K.
Qed.

Theorem C30_similarity_order_reversed :
  forall part (D : arr2 xr) n k cpu n_jobs res,
    part_ok part -> nrow D = n -> ncol D = n ->
    (forall i j, i < n -> j < n -> i <> j -> nisfin (at2 D i j) = true) ->
    0 < k < n -> (1 <= workers cpu n_jobs)%Z ->
    local_scaling xexp part D (Z.of_nat k) "similarity" None cpu n_jobs res ->
    exists L (r : nat -> R), res = Ok L /\ nrow L = n /\ ncol L = n /\
      (forall i, i < n -> kth_largest (others D (seq 0 n) i) k (XFin (r i))) /\
      (forall i, i < n -> at2 L i i = XFin 1) /\
      (forall i j, i < n -> j < n -> at2 L i j = at2 L j i) /\
      (forall i j, i < j -> j < n -> (r i * r j <> 0)%R ->
         at2 L i j = XFin (exp (- (real_at D i j * real_at D i j) / (r i * r j)))) /\
      (forall i j l, i < j -> i < l -> j < n -> l < n ->
         (0 < r i)%R -> (0 < r j)%R -> r j = r l ->
         (0 <= real_at D i j < real_at D i l)%R ->
         nlt (at2 L i l) (at2 L i j) = true).
Proof.
  intros part D n k cpu nj res PO Hr Hc Hf Hk Hw H. subst n.
  destruct (ls_radii_sim part D k PO (eq_sym Hc) Hf Hk) as (rs & E & K).
  apply ls_outcome in H; [|exact Hw]. rewrite E in H. destruct H as (L & -> & R1 & R2 & A).
  assert (Ad : forall i j, i < nrow D -> j < nrow D -> at2 L i j =
     if i =? j then XFin 1 else ls_cell xexp "similarity" D (fun a => nth a rs XNaN) (Nat.min i j) (Nat.max i j)).
  { intros i j Hi Hj. destruct (A i j Hi Hj) as (A1 & A2). destruct (Nat.eqb_spec i j) as [Eij|Eij].
    - rewrite (A1 Eij). reflexivity.
    - apply maybe0_xr. now apply A2. }
  set (r := fun i => match nth i rs XNaN with XFin x => x | _ => 0%R end).
  assert (Er : forall i, i < nrow D -> nth i rs XNaN = XFin (r i)).
  { intros i Hi. unfold r. destruct (K i Hi) as (Kin & _). apply (others_in D (nrow D) None) in Kin.
    destruct Kin as (j & Hj & Hne & Ej). assert (F := Hf i j Hi Hj (not_eq_sym Hne)). rewrite <- Ej in F.
    change (xisfin (nth i rs XNaN) = true) in F. destruct (nth i rs XNaN); try discriminate. reflexivity. }
  assert (Dr : forall i j, i < nrow D -> j < nrow D -> i <> j -> at2 D i j = XFin (real_at D i j)).
  { intros i j Hi Hj Hne. assert (F := Hf i j Hi Hj Hne). unfold real_at. simpl in F. now destruct (at2 D i j). }
  assert (Cell : forall i j, i < j -> j < nrow D -> (r i * r j <> 0)%R -> at2 L i j =
      XFin (exp (- (real_at D i j * real_at D i j) / (r i * r j)))).
  { intros i j Hij Hj Hne. rewrite Ad by lia. destruct (Nat.eqb_spec i j); [lia|].
    rewrite Nat.min_l, Nat.max_r by lia. unfold ls_cell. rewrite Dr, !Er by lia. unfold ls_val. simpl.
    destruct (Req_EM_T (r i * r j) 0); [contradiction|]. simpl. f_equal. f_equal. f_equal. ring. }
  exists L, r. split; [reflexivity|]. split; [assumption|]. split; [assumption|].
  split; [intros i Hi; rewrite <- Er by assumption; apply (K i Hi)|].
  split; [intros i Hi; rewrite Ad by assumption; now rewrite Nat.eqb_refl|].
  split.
  { intros i j Hi Hj. rewrite !Ad by assumption. rewrite (Nat.eqb_sym j i), (Nat.min_comm j i), (Nat.max_comm j i). reflexivity. }
  split; [exact Cell|].
  intros i j l Hij Hil Hj Hl Pi Pj Erl (S0 & S1).
  assert (P : (0 < r i * r j)%R) by now apply Rmult_lt_0_compat.
  rewrite (Cell i j), (Cell i l) by (try assumption; rewrite <- ?Erl; lra).
  rewrite <- Erl. simpl. destruct (Rlt_dec _ _) as [|NL]; [reflexivity|]. exfalso. apply NL. apply exp_increasing.
  unfold Rdiv. apply Rmult_lt_compat_r; [now apply Rinv_0_lt_compat|]. nra.
Qed.

(** ** C31: coinciding points.  If the distance of i and j is 0 and the k-th
    neighbour distance of one of them is 0, their local scaling distance is NaN *)
Lemma kth_smallest_f2x (l : list f64) k v : kth_smallest l k v -> kth_smallest (map f2x l) k (f2x v).
Proof.
  intros (H1 & H2). split; [now apply in_map|]. rewrite !filter_map_len.
  rewrite (filter_ext (fun x => nlt (f2x x) (f2x v)) (fun x => nlt x v)) by (intros x; symmetry; apply (cl_lt _ _ _ f64_cmp)).
  rewrite (filter_ext (fun x => nle (f2x x) (f2x v)) (fun x => nle x v)) by (intros x; symmetry; apply (cl_le _ _ _ f64_cmp)).
  assumption.
Qed.

Definition zz (s : bool) : f64 := Flocq.IEEE754.BinarySingleNaN.B754_zero s.
Lemma zero_f2x (v : f64) : neq v n0 = true -> exists s, v = zz s.
Proof.
  intros H. destruct v as [s|s| |s m e Hb]; [now exists s| | |]; exfalso.
  - destruct s; discriminate.
  - discriminate.
  - destruct s; discriminate.
Qed.

Theorem C31_duplicates_give_nan :
  forall (vexp : f64 -> f64) part (D : arr2 f64) n k test cpu n_jobs L i j v,
    nisnan (vexp nnan) = true -> part_ok part -> nrow D = n -> ncol D = n ->
    (forall i j, i < n -> j < n -> i <> j -> nisfin (at2 D i j) = true) ->
    0 < k < length (training n test) -> (1 <= workers cpu n_jobs)%Z ->
    local_scaling vexp part D (Z.of_nat k) "distance" test cpu n_jobs (Ok L) ->
    i < n -> j < n -> i <> j ->
    neq (at2 D i j) n0 = true -> neq (at2 D j i) n0 = true ->
    kth_smallest (others D (training n test) i) k v -> neq v n0 = true ->
    nisnan (at2 L i j) = true /\ nisnan (at2 L j i) = true.
Proof.
  intros vexp part D n k test cpu nj L i j v He PO Hr Hc Hf Hk Hw H Hi Hj Hne Dij Dji Kv Zv. subst n.
  destruct (ls_radii_dist f64_cmp part D k test PO (eq_sym Hc) Hf Hk) as (rs & E & K).
  apply ls_outcome in H; [|exact Hw]. rewrite E in H. destruct H as (L' & E' & R1 & R2 & A). injection E' as <-.
  assert (Ri : neq (nth i rs nnan) n0 = true).
  { assert (EQ : f2x (nth i rs nnan) = f2x v) by
      (eapply kth_smallest_unique; apply kth_smallest_f2x; [apply (K i Hi)|exact Kv]).
    rewrite (cl_eq _ _ _ f64_cmp) in *. now rewrite EQ. }
  assert (Rj : nisfin (nth j rs nnan) = true).
  { destruct (K j Hj) as (Kin & _). apply others_in in Kin. destruct Kin as (b & Hb & Hbne & ->). now apply Hf; auto. }
  assert (Dz : neq (at2 D (Nat.min i j) (Nat.max i j)) n0 = true).
  { destruct (Nat.le_ge_cases i j); [rewrite Nat.min_l, Nat.max_r by lia|rewrite Nat.min_r, Nat.max_l by lia]; assumption. }
  assert (V : nisnan (ls_cell vexp "distance" D (fun a => nth a rs nnan) (Nat.min i j) (Nat.max i j)) = true).
  { unfold ls_cell. destruct (zero_f2x _ Dz) as (sd & ->). destruct (zero_f2x _ Ri) as (si & Ei).
    assert (Q : ndiv (nmul (nofZ (-1)) (nmul (zz sd) (zz sd)))
      (nmul (nth (Nat.min i j) rs nnan) (nth (Nat.max i j) rs nnan)) = (nnan : f64)).
    { destruct (Nat.le_ge_cases i j); [rewrite Nat.min_l, Nat.max_r by lia|rewrite Nat.min_r, Nat.max_l by lia];
        rewrite Ei; destruct (nth j rs nnan) as [sj|sj| |sj m e Hb]; try discriminate Rj; destruct sd; reflexivity. }
    unfold ls_val. cbv zeta beta. match goal with |- context [vexp ?q] => change q with (ndiv (nmul (nofZ (-1)) (nmul (zz sd) (zz sd))) (nmul (nth (Nat.min i j) rs nnan) (nth (Nat.max i j) rs nnan))) end. rewrite Q. change (is_sim "distance") with false. cbv iota.
    destruct (vexp nnan) as [?|?| |? ? ? ?]; try discriminate He. reflexivity. }
  assert (Mn : forall w : f64, maybe0 (ls_cell vexp "distance" D (fun a => nth a rs nnan) (Nat.min i j) (Nat.max i j)) w -> nisnan w = true).
  { intros w Hm. apply maybe0_same in Hm. unfold same in Hm. revert V Hm.
    destruct (ls_cell vexp "distance" D (fun a => nth a rs nnan) (Nat.min i j) (Nat.max i j)); try discriminate.
    intros _. rewrite (cl_eq _ _ _ f64_cmp). destruct w as [?|[|]| |? ? ? ?]; simpl; auto. }
  split; apply Mn.
  - now apply (A i j Hi Hj).
  - rewrite (Nat.min_comm i j), (Nat.max_comm i j). apply (A j i Hj Hi). auto.
Qed.

(* ------------------------------------------------------------------ *)
(** concrete cases *)
Definition exL (f : nat -> nat -> R) (n : nat) : arr2 xr := Arr2 n n (fun i j => XFin (f i j)).

(** three points on a line at 0, 1, 3: the hypotheses of C27 hold for k = 1, 2 *)
Definition exL3 : arr2 xr := exL (fun i j => Rabs (nth i [0; 1; 3]%R 0%R - nth j [0; 1; 3]%R 0%R)) 3.
Example C27_case : exists L r, local_scaling xexp ref_part exL3 1 "distance" None 4 2 (Ok L) /\
  kth_smallest (others exL3 (seq 0 3) 2) 1 (XFin (r 2)) /\ r 2 = 2%R /\ r 1 = 1%R /\
  at2 L 1 2 = XFin (1 - exp (- (2 * 2) / (1 * 2))).
Proof.
  destruct (C29_some_outcome xexp ref_part exL3 (Z.of_nat 1) "distance" None 4 2) as (res & H).
  destruct (C27_ls_formula ref_part exL3 3 1 None 4 2 res) as (L & r & -> & _ & _ & K & _ & _ & F & _); auto.
  - apply ref_part_ok with (1 := xr_cmp).
  - simpl. lia.
  - unfold workers. simpl. lia.
  - assert (R2 : r 2 = 2%R).
    { assert (K2 := K 2 ltac:(lia)). enough (Q : XFin (r 2) = XFin 2) by (now injection Q). apply (kth_smallest_unique _ _ _ _ K2).
      unfold others. simpl. rewrite !Rminus_0_r. replace (3 - 1)%R with 2%R by ring. rewrite !Rabs_pos_eq by lra.
      split; [right; now left|]. simpl. split.
      - destruct (Rlt_dec 3 2); [lra|]. destruct (Rlt_dec 2 2); [lra|]. simpl. lia.
      - destruct (Rle_dec 3 2); [lra|]. destruct (Rle_dec 2 2); [|lra]. simpl. lia. }
    assert (R1 : r 1 = 1%R).
    { assert (K2 := K 1 ltac:(lia)). enough (Q : XFin (r 1) = XFin 1) by (now injection Q). apply (kth_smallest_unique _ _ _ _ K2).
      unfold others. simpl. replace (1 - 0)%R with 1%R by ring. replace (1 - 3)%R with (-(2))%R by ring.
      rewrite Rabs_Ropp, !Rabs_pos_eq by lra.
      split; [now left|]. simpl. split.
      - destruct (Rlt_dec 1 1); [lra|]. destruct (Rlt_dec 2 1); [lra|]. simpl. lia.
      - destruct (Rle_dec 1 1); [|lra]. simpl. lia. }
    exists L, r. split; [assumption|]. split; [apply K; lia|]. split; [assumption|]. split; [assumption|].
    rewrite F; [|lia|lia|rewrite R1, R2; lra]. rewrite R1, R2. unfold real_at. simpl.
    replace (1 - 3)%R with (-(2))%R by ring. rewrite Rabs_Ropp, Rabs_pos_eq by lra. reflexivity.
Qed.

(** three similarities s01 = 1, s02 = 2, s12 = 3: point 0 is more similar to 2
    than to 1, after local scaling it is less similar to 2 than to 1 *)
Definition exS3 : arr2 xr := exL (fun i j => INR (i + j)) 3.
Example C30_case : exists L, local_scaling xexp ref_part exS3 1 "similarity" None 4 1 (Ok L) /\
  nlt (at2 exS3 0 1) (at2 exS3 0 2) = true /\ nlt (at2 L 0 2) (at2 L 0 1) = true.
Proof.
  destruct (C29_some_outcome xexp ref_part exS3 (Z.of_nat 1) "similarity" None 4 1) as (res & H).
  destruct (C30_similarity_order_reversed ref_part exS3 3 1 4 1 res) as (L & r & -> & _ & _ & K & _ & _ & _ & F); auto.
  - apply ref_part_ok with (1 := xr_cmp).
  - unfold workers. simpl. lia.
  - assert (R0 : r 0 = 2%R).
    { destruct (K 0 ltac:(lia)) as (I & C & _). revert C. unfold others in I. simpl in I. destruct I as [I|[I|[]]]; injection I as I.
      - rewrite <- I. simpl. destruct (Rlt_dec 1 1); [lra|]. destruct (Rlt_dec 1 (1+1)); [|lra]. simpl. lia.
      - intros _. rewrite <- I. ring. }
    assert (R1 : r 1 = 3%R).
    { destruct (K 1 ltac:(lia)) as (I & C & _). revert C. unfold others in I. simpl in I. destruct I as [I|[I|[]]]; injection I as I.
      - rewrite <- I. simpl. destruct (Rlt_dec 1 1); [lra|]. destruct (Rlt_dec 1 (1+1+1)); [|lra]. simpl. lia.
      - intros _. rewrite <- I. ring. }
    assert (R2 : r 2 = 3%R).
    { destruct (K 2 ltac:(lia)) as (I & C & _). revert C. unfold others in I. simpl in I. destruct I as [I|[I|[]]]; injection I as I.
      - rewrite <- I. simpl. destruct (Rlt_dec (1+1) (1+1)); [lra|]. destruct (Rlt_dec (1+1) (1+1+1)); [|lra]. simpl. lia.
      - intros _. rewrite <- I. ring. }
    exists L. split; [assumption|]. split.
    + simpl. destruct (Rlt_dec 1 (1+1)); [reflexivity|lra].
    + apply F; try lia; try lra. unfold real_at. simpl. lra.
Qed.

(** points 0 and 1 coincide *)
Definition exDup : arr2 f64 := of_rows nnan (map (map f64_ofZ) [[0;0;5];[0;0;5];[5;5;0]]%Z).
Example C31_case :
  match local_scaling_serial (fun x => if nisnan x then nnan else n1) ref_part exDup 1 "distance" None with
  | Ok L => nisnan (at2 L 0 1) = true /\ nisnan (at2 L 0 2) = false
  | Raise _ => False
  end /\ length (filter (fun x => nle x n0) (others exDup (seq 0 3) 0)) = 1.
Proof. vm_compute. auto. Qed.

Print Assumptions C27_ls_formula.
Print Assumptions C27_ls_float64_symmetric.
Print Assumptions C28_ls_scale_free.
Print Assumptions C29_some_outcome.
Print Assumptions C29_ls_schedule_independent.
Print Assumptions C30_similarity_order_reversed.
Print Assumptions C31_duplicates_give_nan.
