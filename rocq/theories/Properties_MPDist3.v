(** Properties C124-C125: Gumbel Mutual Proximity of sparse similarities and Gamma
    Mutual Proximity where its parameters do not exist, in exact arithmetic. *)
From Coq Require Import String.
From Coq Require Import ZArith List Arith Lia Bool Permutation Reals Lra.
From Verif Require Import Py Num NumT Arr S_Neighbors S_MP S_Approx S_MPDist M_IO M_MPEmpiric M_Approx M_MPDist.
From Verif Require Import P_MPEmpiric P_MPEmpiric2 P_ApproxMPG P_MPDist P_MPDist2 P_MPDist3 P_MPDist4 P_MPDist5 P_Hubness.
Import ListNotations.
Local Open Scope nat_scope.

Definition gumbel (g : R) := gumbel_sparse xsum (fun x => x) xexp (XFin (sqrt 6)) (XFin PI) (XFin g).

(** ** C124 (1): a known similarity x of i < j, i with enough neighbours, becomes
    the product of the Gumbel distribution functions of i and j at x, which is
    in (0, 1); unknown similarities become 0.  The mirrored cell is the same, or
    the original one if j has too few neighbours. *)
Theorem C124_gumbel_values :
  forall (g : R) (S : smat xr) n w m M i j,
    srow S = n -> similarities (stored S) n w -> gumbel g S m None = Ok M ->
    i < j -> j < n -> m < row_nnz S i ->
    (w i j = None -> sval M i j = XFin 0 /\ sval M j i = XFin 0) /\
    (forall x, w i j = Some x ->
       (forall k, k = i \/ k = j -> 2 <= length (known w (seq 0 n) k) /\ rvar1 (known w (seq 0 n) k) <> 0%R) ->
       let F k := gumbel_cdf g (known w (seq 0 n) k) x in
       sval M i j = XFin (F i * F j) /\ (0 < F i * F j < 1)%R /\
       (m < row_nnz S j -> sval M j i = XFin (F i * F j)) /\
       (row_nnz S j <= m -> sval M j i = XFin x)).
Proof.
  intros g S n w m M i j HR HS H Hij Hj Hi. unfold gumbel, gumbel_sparse in H.
  apply bind_ok_inv in H as ([] & _ & H). rewrite HR, train_rows_spec in H. injection H as <-. change (training n None) with (seq 0 n).
  assert (T : forall l, In l (seq 0 n) -> l < n) by (intros l Hl; apply in_seq in Hl; lia).
  assert (Is : forall k, k < n -> In k (seq 0 n)) by (intros k Hk; apply in_seq; lia).
  assert (Es : w j i = w i j) by (destruct HS as (_ & _ & C); destruct (C i j ltac:(lia) Hj) as (-> & _); reflexivity).
  set (gv := gus_value _ _ _ _ _ _ _).
  assert (Kp : row_nnz S j <= m -> sval (sp_finish (fun x => x) S m gv) j i = XFin match w i j with Some x => x | None => 0%R end).
  { intros Hp. unfold sval. rewrite sp_finish_kept by assumption. rewrite (sval_w S n w HS) by lia. rewrite Es.
    destruct (w i j) as [y|]; unfold nonzero; cbn; [destruct (Req_EM_T y 0) as [->|]; reflexivity|].
    destruct (Req_EM_T 0 0); [reflexivity|lra]. }
  split.
  - intros E. assert (GV : gv i j = XFin 0) by (apply (gus_value_none g S n w (seq 0 n) HS); assumption || lia).
    split.
    + unfold sval. rewrite sp_finish_rich by assumption. rewrite GV. apply lil_oval.
    + destruct (Nat.le_gt_cases (row_nnz S j) m) as [P|P]; [rewrite Kp by exact P; now rewrite E|].
      unfold sval. rewrite sp_finish_rich_mirror by assumption. rewrite GV. apply lil_oval'.
  - intros x E HK F.
    destruct (HK i (or_introl eq_refl)) as (L1 & V1), (HK j (or_intror eq_refl)) as (L2 & V2).
    assert (GV : gv i j = XFin (F i * F j)).
    { unfold gv. rewrite (gus_value_unfold g S n w (seq 0 n) HS i j x) by (assumption || lia).
      rewrite !(gumbel_one g S n w (seq 0 n) HS T (seq_NoDup n 0)) by (assumption || (apply Is; lia) || lia). reflexivity. }
    split; [|split; [|split]].
    + unfold sval. rewrite sp_finish_rich by assumption. rewrite GV. apply lil_oval.
    + pose proof (gumbel_unit g (known w (seq 0 n) i) x). pose proof (gumbel_unit g (known w (seq 0 n) j) x). unfold F. nra.
    + intros Hr. unfold sval. rewrite sp_finish_rich_mirror by assumption. rewrite GV. apply lil_oval'.
    + intros P. rewrite Kp by exact P. now rewrite E.
Qed.
(** these distribution functions increase strictly *)
Theorem C124_gumbel_increasing :
  forall g l x y, rvar1 l <> 0%R -> 2 <= length l -> (x < y)%R -> (gumbel_cdf g l x < gumbel_cdf g l y)%R.
Proof. intros g l x y V L H. apply gumbel_mono; [|exact H]. pose proof (rvar1_nonneg l L). lra. Qed.

(** ** C124 (2): if an object has only one known similarity, or only equal ones,
    they all become NaN. *)
Theorem C124_gumbel_no_spread_is_nan :
  forall (g : R) (S : smat xr) n w m M i j k x,
    srow S = n -> similarities (stored S) n w -> gumbel g S m None = Ok M ->
    i < j -> j < n -> m < row_nnz S i -> k = i \/ k = j -> w i j = Some x ->
    (forall y, In y (known w (seq 0 n) k) -> y = x) ->
    sval M i j = XNaN.
Proof.
  intros g S n w m M i j k x HR HS H Hij Hj Hi Hk E Heq. unfold gumbel, gumbel_sparse in H.
  apply bind_ok_inv in H as ([] & _ & H). rewrite HR, train_rows_spec in H. injection H as <-. change (training n None) with (seq 0 n).
  assert (T : forall l, In l (seq 0 n) -> l < n) by (intros l Hl; apply in_seq in Hl; lia).
  assert (Is : forall k, k < n -> In k (seq 0 n)) by (intros l Hl; apply in_seq; lia).
  assert (Es : w j i = w i j) by (destruct HS as (_ & _ & C); destruct (C i j ltac:(lia) Hj) as (-> & _); reflexivity).
  set (gv := gus_value _ _ _ _ _ _ _).
  assert (KI : forall a b, a < n -> a <> b -> w a b = Some x -> In x (known w (seq 0 n) b)).
  { intros a b Ha Hne Ew. unfold known. apply in_flat_map. exists a. split; [now apply Is|].
    destruct (Nat.eqb_spec a b); [contradiction|]. rewrite Ew. now left. }
  assert (GV : gv i j = XNaN).
  { unfold gv. rewrite (gus_value_unfold g S n w (seq 0 n) HS i j x) by (assumption || lia).
    destruct Hk as [-> | ->].
    - rewrite (gumbel_nan g S n w (seq 0 n) HS T (seq_NoDup n 0) i x); [reflexivity|lia|apply Is; lia| |assumption].
      apply (KI j i); [lia|lia|congruence].
    - rewrite (gumbel_nan g S n w (seq 0 n) HS T (seq_NoDup n 0) j x); [|lia|apply Is; lia| |assumption].
      + match goal with |- nmul ?a _ = _ => destruct a; reflexivity end.
      + apply (KI i j); [lia|lia|assumption]. }
  unfold sval. rewrite sp_finish_rich by assumption. rewrite GV. apply lil_oval.
Qed.

(** ** C125, DEFECT: Gamma Mutual Proximity of an object whose mean is negative,
    or to which fewer than two training objects are given, is NaN for every pair
    it takes part in; the call returns nevertheless.  (gammainc of NaN is NaN.) *)
Theorem C125_gamma_negative_mean_is_nan :
  forall (gam : xr -> xr -> xr) (D : arr2 xr) n d metric test i j,
    (forall a, gam a XNaN = XNaN) -> finite_off D n d -> valid_metric metric = true ->
    i < n -> j < n -> i <> j ->
    length (seen d (training n test) i) <= 1 \/ (rmean (seen d (training n test) i) < 0)%R ->
    exists M, gammai xsum gam D metric test = Ok M /\ at2 M i j = XNaN /\ at2 M j i = XNaN.
Proof.
  intros gam D n d metric test i j HG HD Hv Hi Hj Hne H.
  exists (gammai_core xsum gam metric (train_rows n test) D).
  split; [exact (gammai_ok gam D n d HD metric test Hv)|].
  assert (HD' := HD). destruct HD' as (R & _ & _). unfold gammai_core. cbv zeta. rewrite R.
  pose proof (gamma_scale_bad D n d (training n test) i HD Hi (training_lt n test) H) as B. cbv zeta in B.
  rewrite !mirror_at by assumption. rewrite train_rows_spec.
  destruct (Nat.eqb_spec i j); [contradiction|]. destruct (Nat.eqb_spec j i); [congruence|].
  rewrite !(ga_value_nan gam metric) by (try assumption; first [left; exact B | right; exact B]).
  split; destruct (_ <? _); reflexivity.
Qed.

(* ------------------------------------------------------------------ *)
(** four objects that all know each other *)
Definition quad_w (i j : nat) : option R := Some (if i =? j then 1 else / INR (1 + i + j))%R.
Definition quad_S : smat xr := SMat 4 4 (fun i j => option_map XFin (quad_w i j)).
Lemma quad_ok : similarities (stored quad_S) 4 quad_w.
Proof.
  split; [reflexivity|]. split; [intros i _; unfold quad_w; now rewrite Nat.eqb_refl|].
  intros i j _ _. unfold quad_w. rewrite (Nat.eqb_sym j i), <- !Nat.add_assoc, (Nat.add_comm j i). split; [reflexivity|].
  intros C. injection C as C. destruct (i =? j); [lra|]. revert C. apply (Rinv_neq_0_compat (INR (1 + (i + j)))). apply not_0_INR. lia.
Qed.
Example C124_case : exists M, gumbel (577 / 1000) quad_S 3 None = Ok M /\ 3 < row_nnz quad_S 0 /\
  forall k, k = 0 \/ k = 1 -> 2 <= length (known quad_w (seq 0 4) k) /\ rvar1 (known quad_w (seq 0 4) k) <> 0%R.
Proof.
  unfold gumbel, gumbel_sparse.
  assert (U : unit_diagonal quad_S = true).
  { unfold unit_diagonal. apply andb_true_intro. split; [reflexivity|]. apply forallb_forall. intros i Hi.
    unfold sval, quad_S, quad_w. cbn [stored]. rewrite Nat.eqb_refl. cbn. destruct (Req_EM_T 1 1); [reflexivity|lra]. }
  rewrite U. eexists. split; [reflexivity|]. split; [cbv; lia|].
  assert (K0 : known quad_w (seq 0 4) 0 = [/ 2; / 3; / 4]%R).
  { cbn -[Rinv]. repeat (f_equal; try lra). }
  assert (K1 : known quad_w (seq 0 4) 1 = [/ 2; / 4; / 5]%R).
  { cbn -[Rinv]. repeat (f_equal; try lra). }
  intros k [-> | ->]; rewrite ?K0, ?K1; (split; [cbn; lia|]).
  - replace (rvar1 _) with (7 / 432)%R; [lra|]. unfold rvar1, rmean. cbn -[Rinv]. field.
  - replace (rvar1 _) with (31 / 1200)%R; [lra|]. unfold rvar1, rmean. cbn -[Rinv]. field.
Qed.
(** objects 1 and 2 of three have one known similarity each *)
Example C124_nan_case : exists M, gumbel (577 / 1000)
   (SMat 3 3 (fun i j => option_map XFin (if i =? j then Some 1%R else if (i =? 0) || (j =? 0) then Some (/ 2)%R else None))) 1 None = Ok M /\
   sval M 0 1 = XNaN.
Proof.
  set (w := fun i j : nat => if i =? j then Some 1%R else if (i =? 0) || (j =? 0) then Some (/ 2)%R else None).
  set (S3 := SMat 3 3 _).
  assert (U : unit_diagonal S3 = true).
  { unfold unit_diagonal. apply andb_true_intro. split; [reflexivity|]. apply forallb_forall. intros i Hi.
    unfold sval, S3. cbn [stored]. rewrite Nat.eqb_refl. cbn. destruct (Req_EM_T 1 1); [reflexivity|lra]. }
  eexists. split; [unfold gumbel, gumbel_sparse; rewrite U; reflexivity|].
  refine (C124_gumbel_no_spread_is_nan (577 / 1000) S3 3 w 1 _ 0 1 1 (/ 2)%R eq_refl _ _ _ _ _ _ _ _); try lia.
  - split; [reflexivity|]. split; [intros i _; unfold w; now rewrite Nat.eqb_refl|].
    intros i j _ _. unfold w. rewrite (Nat.eqb_sym j i), (orb_comm (j =? 0)). split; [reflexivity|].
    destruct (i =? j); [intros C; injection C; lra|]. destruct ((i =? 0) || (j =? 0)); [intros C; injection C; lra|discriminate].
  - unfold gumbel, gumbel_sparse. rewrite U. reflexivity.
  - cbv; lia.
  - reflexivity.
  - intros y Hy. cbn in Hy. destruct Hy as [<-|[]]. reflexivity.
Qed.
(** similarities of three objects with negative mean *)
Example C125_case : exists M,
  gammai xsum (fun _ x => x) (Arr2 3 3 (fun i j => XFin (- INR (i + j)))) "similarity" None = Ok M /\
  at2 M 0 2 = XNaN /\ at2 M 2 0 = XNaN.
Proof.
  apply (C125_gamma_negative_mean_is_nan _ _ 3 (fun i j => (- INR (i + j))%R)); try lia; try reflexivity.
  - repeat split.
  - right. cbn. unfold rmean. cbn. lra.
Qed.

Print Assumptions C124_gumbel_values.
Print Assumptions C124_gumbel_increasing.
Print Assumptions C124_gumbel_no_spread_is_nan.
Print Assumptions C125_gamma_negative_mean_is_nan.
