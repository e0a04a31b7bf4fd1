(** Final theorems: localized centering.  Exact arithmetic, except for schedule
    independence, which holds in float64. *)
From Coq Require Import String.
From Coq Require Import ZArith Reals Lra Lia Psatz List Arith Bool Permutation.
From Verif Require Import Py Num NumT NumPow Arr Sort Conc S_LS S_Centering M_IO M_Hubness M_SNN M_LS M_Dist M_Centering P_SNN P_Vec P_Centering P_LCent.
Import ListNotations.
Local Open Scope R_scope.

(** ** C58: formula.  [x] are the query points, [y] the training points (the
    same points if [Y] is not given); all vectors are scaled to length one.  The
    similarity to training point [j] is reduced by the similarity of [j] to the
    mean of its kappa most similar training points. *)
Theorem C58_localized_centering :
  forall argpart n m x ny y Y kappa gamma cpu n_jobs res,
    argpart_ok argpart ->
    (match Y with None => ny = n /\ y = x | Some A => A = rmat ny m y end) ->
    (0 < kappa <= ny)%nat -> 0 <= gamma ->
    localized_centering xsum xpow argpart (rmat n m x) Y (Z.of_nat kappa) (XFin gamma) cpu n_jobs res ->
    let u i := unitR m (x i) in let w j := unitR m (y j) in
    exists L (N : nat -> list nat) (pen : nat -> R), res = Ok L /\
      (forall j, (j < ny)%nat -> top_k (fun a b => b <= a) (fun t => dotR m (w j) (w t)) (seq 0 ny) kappa (N j)) /\
      (let aff j := dotR m (w j) (centroidR w (N j)) in
       (gamma = 1 -> forall j, (j < ny)%nat -> pen j = aff j) /\
       ((exists j, (j < ny)%nat /\ aff j < 0) -> forall j, (j < ny)%nat -> pen j = aff j) /\
       ((forall j, (j < ny)%nat -> 0 <= aff j) -> gamma <> 1 -> forall j, (j < ny)%nat -> pen j = powR (aff j) gamma)) /\
      eq2 L (rmat n ny (fun i j => dotR m (u i) (w j) - pen j)).
Proof.
  intros argpart n m x ny y Y kappa gamma cpu nj res AP HY Hk Hg H u w.
  destruct (lcent_explicit argpart AP (rmat n m x) (rmat ny m y) Y x y kappa gamma cpu nj res) as (L & -> & R & C & F); auto using rmat_finite.
  { destruct Y; [now symmetry|]. destruct HY as [-> ->]. reflexivity. }
  cbn [rmat nrow ncol] in R, C, F. fold w in F.
  exists L, (lc_nn argpart m ny w kappa), (lc_pen ny (lc_aff argpart m ny w kappa) gamma).
  split; [reflexivity|]. split; [intros j _; now apply lc_nn_top|]. split.
  - cbv zeta. fold (lc_aff argpart m ny w kappa). unfold lc_pen. split; [|split].
    + intros ->. intros j _. destruct (Req_EM_T 1 1); [reflexivity|contradiction].
    + intros (i & Hi & Hn) j _. destruct (Req_EM_T gamma 1); [reflexivity|].
      replace (existsb _ _) with true; [reflexivity|]. symmetry. apply existsb_exists. exists i. split; [apply in_seq; lia|].
      fold (lc_aff argpart m ny w kappa i) in Hn. destruct (Rlt_dec (lc_aff argpart m ny w kappa i) 0); [reflexivity|lra].
    + intros Ha Hne j _. destruct (Req_EM_T gamma 1); [contradiction|].
      replace (existsb _ _) with false; [reflexivity|]. symmetry. apply not_true_is_false. intros E. apply existsb_exists in E.
      destruct E as (i & Hi & E). apply in_seq in Hi. specialize (Ha i ltac:(lia)). fold (lc_aff argpart m ny w kappa i) in Ha.
      destruct (Rlt_dec (lc_aff argpart m ny w kappa i) 0); [lra|discriminate].
  - split; [exact R|]. split; [exact C|]. intros i j Hi Hj. now rewrite F.
Qed.

(** ** C36: kappa = n, gamma = 1.  Every row differs from the row of inner
    products of the centred unit vectors by a constant of that row *)
Theorem C36_kappa_n_is_centering :
  forall argpart n m x cpu n_jobs res,
    argpart_ok argpart -> (0 < n)%nat ->
    localized_centering xsum xpow argpart (rmat n m x) None (Z.of_nat n) (XFin 1) cpu n_jobs res ->
    let u i := unitR m (x i) in let c := centroidR u (seq 0 n) in
    exists L, res = Ok L /\
      eq2 L (rmat n n (fun i j => dotR m (vminus (u i) c) (vminus (u j) c) + dotR m (vminus (u i) c) c)).
Proof.
  intros argpart n m x cpu nj res AP Hn H u c.
  destruct (C58_localized_centering argpart n m x n x None n 1 cpu nj res AP (conj eq_refl eq_refl) ltac:(lia) ltac:(lra) H)
    as (L & N & pen & -> & HN & (Hp & _) & R & C & F).
  exists L. split; [reflexivity|]. split; [exact R|]. split; [exact C|]. intros i j Hi Hj. rewrite F by assumption. cbn [rmat at2]. f_equal.
  cbn in R, C. rewrite (Hp eq_refl j) by lia.
  assert (Ec : dotR m (unitR m (x j)) (centroidR (fun j0 => unitR m (x j0)) (N j)) = dotR m (u j) c).
  { apply dotR_ext; [reflexivity|]. intros f _. unfold c, centroidR. destruct (HN j ltac:(lia)) as (Ln & ND & Hi' & _). rewrite Ln, seq_length.
    f_equal. apply rsum_perm. apply Permutation_map. apply NoDup_Permutation_bis; [assumption|rewrite seq_length; lia|assumption]. }
  rewrite Ec.
  rewrite dotR_minus_r, !dotR_minus_l. rewrite (dotR_comm m c (u j)). unfold u. ring.
Qed.

(** hence two candidates are ranked within a row exactly as by standard centering *)
Theorem C36_same_ranking :
  forall argpart n m x cpu n_jobs L,
    argpart_ok argpart -> (0 < n)%nat ->
    localized_centering xsum xpow argpart (rmat n m x) None (Z.of_nat n) (XFin 1) cpu n_jobs (Ok L) ->
    let u i := unitR m (x i) in let c := centroidR u (seq 0 n) in
    forall i a b, (i < n)%nat -> (a < n)%nat -> (b < n)%nat ->
      xle (at2 L i a) (at2 L i b) = true <->
      dotR m (vminus (u i) c) (vminus (u a) c) <= dotR m (vminus (u i) c) (vminus (u b) c).
Proof.
  intros argpart n m x cpu nj L AP Hn H u c i a b Hi Ha Hb.
  destruct (C36_kappa_n_is_centering argpart n m x cpu nj (Ok L) AP Hn H) as (L' & E & R & C & F). injection E as <-.
  cbn [rmat nrow ncol] in R, C. rewrite !F by lia. cbn [rmat at2]. fold u. fold c. cbn [xle]. destruct (Rle_dec _ _) as [Q|Q]; split; intros J;
    [apply Rplus_le_reg_r in Q; exact Q | reflexivity | discriminate | exfalso; apply Q; now apply Rplus_le_compat_r].
Qed.

(** ** C58: multiplying rows by positive factors changes nothing *)
Theorem C58_scale_free :
  forall argpart n m x (a : nat -> R) kappa gamma cpu n_jobs cpu' n_jobs' res res',
    argpart_ok argpart -> (0 < kappa <= n)%nat -> 0 <= gamma -> (forall i, (i < n)%nat -> 0 < a i) ->
    localized_centering xsum xpow argpart (rmat n m x) None (Z.of_nat kappa) (XFin gamma) cpu n_jobs res ->
    localized_centering xsum xpow argpart (rmat n m (fun i f => a i * x i f)) None (Z.of_nat kappa) (XFin gamma) cpu' n_jobs' res' ->
    exists L L', res = Ok L /\ res' = Ok L' /\ eq2 L L'.
Proof.
  intros argpart n m x a kappa gamma cpu nj cpu' nj' res res' AP Hk Hg Ha H H'.
  destruct (lcent_explicit argpart AP (rmat n m x) (rmat n m x) None x x kappa gamma cpu nj res) as (L & -> & R & C & F); auto using rmat_finite.
  destruct (lcent_explicit argpart AP (rmat n m (fun i f => a i * x i f)) (rmat n m (fun i f => a i * x i f)) None (fun i f => a i * x i f) (fun i f => a i * x i f)
     kappa gamma cpu' nj' res') as (L' & -> & R' & C' & F'); auto using rmat_finite.
  exists L, L'. split; [reflexivity|]. split; [reflexivity|]. cbn [rmat nrow ncol] in *. split; [congruence|]. split; [congruence|].
  intros i j Hi Hj. rewrite F, F' by congruence. f_equal.
  assert (U : forall i f, (i < n)%nat -> unitR m (fun f => a i * x i f) f = unitR m (x i) f) by (intros; apply unitR_scale; auto).
  f_equal.
  - apply dotR_ext; intros f _; symmetry; apply U; lia.
  - assert (EN : forall j, (j < n)%nat -> lc_nn argpart m n (fun j => unitR m (x j)) kappa j = lc_nn argpart m n (fun j => unitR m (fun f => a j * x j f)) kappa j).
    { intros t Ht. unfold lc_nn. do 2 f_equal. f_equal. apply map_ext_in. intros s Hs. apply in_seq in Hs. f_equal.
      apply dotR_ext; intros f _; symmetry; apply U; lia. }
    assert (EA : forall j, (j < n)%nat -> lc_aff argpart m n (fun j => unitR m (x j)) kappa j = lc_aff argpart m n (fun j => unitR m (fun f => a j * x j f)) kappa j).
    { intros t Ht. unfold lc_aff. rewrite EN by assumption. apply dotR_ext; intros f _; [symmetry; now apply U|].
      unfold centroidR. f_equal. apply rsum_ext. intros s Hs.
      destruct (lc_nn_top argpart AP m n (fun j => unitR m (fun f => a j * x j f)) kappa t Hk) as (_ & _ & Hin & _).
      apply Hin in Hs. apply in_seq in Hs. symmetry. apply U. lia. }
    unfold lc_pen. rewrite (EA j) by lia. destruct (Req_EM_T gamma 1); [reflexivity|].
    assert (EX : forall l, (forall i, In i l -> (i < n)%nat) ->
      existsb (fun i => if Rlt_dec (lc_aff argpart m n (fun j => unitR m (x j)) kappa i) 0 then true else false) l =
      existsb (fun i => if Rlt_dec (lc_aff argpart m n (fun j => unitR m (fun f => a j * x j f)) kappa i) 0 then true else false) l).
    { induction l as [|b l IH]; intros Hl; [reflexivity|]. cbn [existsb]. rewrite EA by (apply Hl; now left). rewrite IH by (intros; apply Hl; now right). reflexivity. }
    rewrite EX; [reflexivity|]. intros b Hb. apply in_seq in Hb. lia.
Qed.

(** ** C58: kappa larger than the training set is rejected *)
Theorem C58_kappa_too_large :
  forall argpart n m x kappa gamma cpu n_jobs res, (0 < n)%nat -> (n < kappa)%nat ->
    localized_centering xsum xpow argpart (rmat n m x) None (Z.of_nat kappa) (XFin gamma) cpu n_jobs res ->
    res = Raise ValueError.
Proof.
  intros argpart n m x kappa gamma cpu nj res Hn Hk H.
  assert (E : forall W S, nrow W = n -> ncol S = n -> mapM (local_affinity xsum argpart W S (Z.of_nat kappa)) (seq 0 (nrow W)) = Raise ValueError).
  { intros W S HW HS. rewrite HW. destruct n as [|n']; [lia|]. cbn [seq mapM]. unfold local_affinity at 1, np_argpartition.
    replace (kth_legal (Datatypes.length (rowl S 0)) [(- Z.of_nat kappa)%Z]) with false; [reflexivity|].
    symmetry. unfold rowl. rewrite map_length, seq_length, HS. unfold kth_legal. cbn [forallb]. rewrite andb_true_r.
    apply andb_false_iff. left. apply Z.leb_gt. lia. }
  assert (M : forall A B C : arr2 xr, matmul xsum A B = Ok C -> ncol C = ncol B).
  { intros A B C. unfold matmul. destruct (ncol A =? nrow B)%nat; cbn; [|discriminate]. intros Q. now injection Q as <-. }
  destruct H as [e He | sim S e W E1 E2 E3 | sim S la W Hj E1 E2 E3 | sim S la buf W Hj E1 E2 E3 Hp].
  - unfold matmul in He. cbn in He. rewrite Nat.eqb_refl in He. discriminate.
  - rewrite E in E3; [congruence|reflexivity|]. apply M in E2. rewrite E2. reflexivity.
  - rewrite E in E3; [discriminate|reflexivity|]. apply M in E2. rewrite E2. reflexivity.
  - rewrite E in E3; [discriminate|reflexivity|]. apply M in E2. rewrite E2. reflexivity.
Qed.

(** ** C58: any number of workers and any schedule give the same matrix (float64,
    any summation and power function, any partition) *)
Theorem C58_some_outcome :
  forall (vsum : list f64 -> f64) vpow argpart X Y kappa gamma cpu n_jobs,
    exists res, localized_centering vsum vpow argpart X Y kappa gamma cpu n_jobs res.
Proof.
  intros vsum vpow argpart X Y kappa gamma cpu nj.
  set (YY := match Y with None => X | Some Y => Y end). set (W := unit_rows vsum YY).
  destruct (matmul vsum (unit_rows vsum X) (transpose W)) as [sim|e] eqn:E1.
  2:{ exists (Raise e). now apply lc_fail_dot. }
  assert (E2 : exists S, matmul vsum W (transpose W) = Ok S).
  { unfold matmul. cbn. rewrite Nat.eqb_refl. cbn. eauto. }
  destruct E2 as (S & E2).
  destruct (mapM (local_affinity vsum argpart W S kappa) (seq 0 (nrow W))) as [la|e] eqn:E3.
  2:{ exists (Raise e). eapply lc_fail; eauto. }
  destruct (Z_le_gt_dec (if (nj =? -1)%Z then Z.of_nat cpu else nj) 1).
  - eexists. eapply lc_serial; eauto.
  - eexists. eapply lc_pool; eauto; [lia|]. apply pool_run_exists.
Qed.

Theorem C58_schedule_independent :
  forall (vsum : list f64 -> f64) vpow argpart X Y kappa gamma cpu n_jobs cpu' n_jobs' res res',
    localized_centering vsum vpow argpart X Y kappa gamma cpu n_jobs res ->
    localized_centering vsum vpow argpart X Y kappa gamma cpu' n_jobs' res' ->
    match res, res' with Ok L, Ok L' => eq2 L L' | Raise e, Raise e' => e = e' | _, _ => False end.
Proof.
  intros vsum vpow argpart X Y kappa gamma cpu nj cpu' nj' res res' H H'.
  set (YY := match Y with None => X | Some Y => Y end) in *. set (W := unit_rows vsum YY) in *.
  assert (A : forall cpu nj res, localized_centering vsum vpow argpart X Y kappa gamma cpu nj res ->
    match matmul vsum (unit_rows vsum X) (transpose W) with
    | Raise e => res = Raise e
    | Ok sim => exists S, matmul vsum W (transpose W) = Ok S /\
        match mapM (local_affinity vsum argpart W S kappa) (seq 0 (nrow W)) with
        | Raise e => res = Raise e
        | Ok la => exists buf, res = Ok (lcent_finish vpow sim (nrow W) buf gamma) /\ ncol sim = nrow W /\
                     forall j, (j < nrow W)%nat -> buf j = nth j la nnan
        end
    end).
  { clear. intros cpu nj res H.
    assert (M : forall C, matmul vsum (unit_rows vsum X) (transpose W) = Ok C -> ncol C = nrow W).
    { intros C. unfold matmul. destruct (_ =? _)%nat; cbn; [|discriminate]. intros Q. now injection Q as <-. }
    destruct H as [e He | sim S e W' E1 E2 E3 | sim S la W' Hj E1 E2 E3 | sim S la buf W' Hj E1 E2 E3 Hp].
    - fold YY in He. fold W in He. now rewrite He.
    - change W' with W in *. rewrite E1. exists S. split; [assumption|]. now rewrite E3.
    - change W' with W in *. rewrite E1. exists S. split; [assumption|]. rewrite E3. exists (fun i => nth i la nnan). split; [reflexivity|]. split; [now apply M|reflexivity].
    - change W' with W in *. rewrite E1. exists S. split; [assumption|]. rewrite E3. exists buf. split; [reflexivity|]. split; [now apply M|]. now apply pool_vector. }
  apply A in H. apply A in H'. destruct (matmul vsum (unit_rows vsum X) (transpose W)) as [sim|e].
  2:{ subst. reflexivity. }
  destruct H as (S & ES & H), H' as (S' & ES' & H'). rewrite ES in ES'. injection ES' as <-.
  destruct (mapM (local_affinity vsum argpart W S kappa) (seq 0 (nrow W))) as [la|e].
  2:{ subst. reflexivity. }
  destruct H as (b & -> & Cn & Hb), H' as (b' & -> & _ & Hb').
  assert (Bb : forall j, (j < nrow W)%nat -> b j = b' j) by (intros j Hj; now rewrite Hb, Hb').
  split; [reflexivity|]. split; [reflexivity|]. intros i j Hi Hj. unfold lcent_finish. cbn [at2 nrow ncol lcent_finish] in *.
  assert (EX : existsb (fun i => nlt (b i) n0) (seq 0 (nrow W)) = existsb (fun i => nlt (b' i) n0) (seq 0 (nrow W))).
  { assert (G : forall l, (forall i, In i l -> (i < nrow W)%nat) -> existsb (fun i => nlt (b i) n0) l = existsb (fun i => nlt (b' i) n0) l).
    { induction l as [|t l IH]; intros Hl; [reflexivity|]. cbn [existsb]. rewrite Bb by (apply Hl; now left). rewrite IH by (intros; apply Hl; now right). reflexivity. }
    apply G. intros t Ht. apply in_seq in Ht. lia. }
  rewrite EX. f_equal. destruct (_ && _)%bool; [f_equal|]; apply Bb; lia.
Qed.

(* ------------------------------------------------------------------ *)
(** a concrete case: three points in the plane, kappa = 2 *)
Definition exL : nat -> nat -> R := fun i f => match i, f with
  | 0%nat, 0%nat => 2 | 0%nat, _ => 0 | 1%nat, 0%nat => 0 | 1%nat, _ => 1 | _, 0%nat => 3 | _, _ => 4 end.
Example C58_case : exists L, localized_centering xsum xpow ref_argpart (rmat 3 2 exL) None 2 (XFin 1) 4 1 (Ok L) /\
  exists r, at2 L 0 1 = XFin r /\ r < 0.
Proof.
  assert (AP : argpart_ok (ref_argpart (V := xr))) by apply (ref_argpart_ok xr_cmp).
  set (X := rmat 3 2 exL). set (W := unit_rows xsum X).
  pose proof (unit_rows_fin X exL (rmat_finite 3 2 exL)) as UX. fold W in UX.
  destruct (matmul_fin W (transpose W) _ _ UX (transpose_fin W _ UX) eq_refl) as (S & ES & RS & CS & FS).
  assert (EL : mapM (local_affinity xsum ref_argpart W S 2) (seq 0 3) =
                 Ok (map (fun j => XFin (lc_aff ref_argpart 2 3 (fun j => unitR 2 (exL j)) 2 j)) (seq 0 3))).
  { apply mapM_const_ok. intros j Hj. apply in_seq in Hj. apply (local_affinity_fin ref_argpart AP W S _ 2 j UX RS CS FS); simpl; lia. }
  assert (H : localized_centering xsum xpow ref_argpart X None 2 (XFin 1) 4 1
     (Ok (lcent_finish xpow S 3 (fun i => nth i (map (fun j => XFin (lc_aff ref_argpart 2 3 (fun j => unitR 2 (exL j)) 2 j)) (seq 0 3)) nnan) (XFin 1)))).
  { apply (lc_serial xsum xpow ref_argpart X None 2 (XFin 1) 4 1 S S); auto. simpl. lia. }
  eexists. split; [exact H|].
  destruct (C58_localized_centering ref_argpart 3 2 exL 3 exL None 2 1 4 1 _ AP (conj eq_refl eq_refl) ltac:(lia) ltac:(lra) H)
    as (L & N & pen & E & HN & (Hp & _) & R & C & F).
  assert (Ex : forall a b : arr2 xr, Ok a = Ok b -> a = b) by (intros a b J; now injection J). apply Ex in E.
  rewrite E. cbn in R, C. rewrite F by lia. eexists. split; [reflexivity|]. rewrite (Hp eq_refl 1%nat) by lia.
  (* the two nearest points of (0,1) are itself and (3,4) *)
  assert (U0 : unitR 2 (exL 0) 0 = 1 /\ unitR 2 (exL 0) 1 = 0).
  { unfold unitR, normR. replace (dotR 2 (exL 0) (exL 0)) with (2 * 2) by (unfold dotR; simpl; ring). rewrite sqrt_square by lra.
    destruct (Req_EM_T (2 * 2) 0); [lra|]. simpl. split; lra. }
  assert (U1 : unitR 2 (exL 1) 0 = 0 /\ unitR 2 (exL 1) 1 = 1).
  { unfold unitR, normR. replace (dotR 2 (exL 1) (exL 1)) with 1 by (unfold dotR; simpl; ring). rewrite sqrt_1.
    destruct (Req_EM_T 1 0); [lra|]. simpl. split; lra. }
  assert (U2 : unitR 2 (exL 2) 0 = 3 / 5 /\ unitR 2 (exL 2) 1 = 4 / 5).
  { unfold unitR, normR. replace (dotR 2 (exL 2) (exL 2)) with (5 * 5) by (unfold dotR; simpl; ring). rewrite sqrt_square by lra.
    destruct (Req_EM_T (5 * 5) 0); [lra|]. simpl. split; lra. }
  destruct U0 as (U00 & U01), U1 as (U10 & U11), U2 as (U20 & U21).
  destruct (HN 1%nat ltac:(lia)) as (Ln & ND & Hin & Hb).
  assert (D0 : dotR 2 (unitR 2 (exL 1)) (unitR 2 (exL 0)) = 0) by (unfold dotR; simpl; rewrite U10, U11, U00, U01; ring).
  assert (D1 : dotR 2 (unitR 2 (exL 1)) (unitR 2 (exL 1)) = 1) by (unfold dotR; simpl; rewrite U10, U11; ring).
  assert (D2 : dotR 2 (unitR 2 (exL 1)) (unitR 2 (exL 2)) = 4 / 5) by (unfold dotR; simpl; rewrite U10, U11, U20, U21; lra).
  rewrite dotR_mean_r, Ln, dotR_comm, D0. destruct (N 1%nat) as [|a [|b [|c l]]]; try discriminate. simpl.
  assert (Ha : In a (seq 0 3)) by (apply Hin; now left). assert (Hb' : In b (seq 0 3)) by (apply Hin; right; now left).
  assert (Hab : a <> b) by (inversion ND; subst; intros ->; apply H2; now left).
  simpl in Ha, Hb'. destruct Ha as [<- | [<- | [<- | []]]], Hb' as [<- | [<- | [<- | []]]]; try congruence; rewrite ?D0, ?D1, ?D2; lra.
Qed.

Print Assumptions C58_localized_centering.
Print Assumptions C36_kappa_n_is_centering.
Print Assumptions C36_same_ranking.
Print Assumptions C58_scale_free.
Print Assumptions C58_kappa_too_large.
Print Assumptions C58_some_outcome.
Print Assumptions C58_schedule_independent.
