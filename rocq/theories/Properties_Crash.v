(** Property C161: worker processes that are killed.  Whatever a parallel call
    returns is right, but a call whose worker was killed at work never returns. *)
From Coq Require Import String.
From Coq Require Import ZArith List Arith Lia Bool Permutation Relations.
From Verif Require Import Py Num NumT Arr Sort Conc S_Neighbors M_IO M_Dist M_Hubness M_SNN M_LS M_Centering M_MPEmpiric M_Simhub M_HubnessClass M_Approx
  S_LS Properties_Hubness Properties_LS Properties_NICDM Properties_SNN M_Start P_Start M_Crash P_Crash.
Import ListNotations.
Local Open Scope nat_scope.

(* ------------------------------------------------------------------ *)
(** ** (1) What is returned is right, whichever workers are killed, whenever *)

(** hubness: the result without worker processes *)
Theorem C161_hubness : forall (argpart : list f64 -> list nat -> list nat), argpart_ok argpart ->
  forall p sparse (D : arr2 f64) k metric se rps r,
    nrow D = ncol D \/ metric = "distance"%string ->
    (forall i, i < nrow D -> Permutation (rps i) (seq 0 (ncol D))) ->
    hubness_killed argpart p sparse D k metric se rps r ->
    r = hubness_serial argpart sparse D k metric se rps.
Proof.
  intros ap AP p sparse D k metric se rps r Sq Wf H.
  apply (proj1 (C04_parallel_equals_serial ap AP sparse D k metric se rps Sq Wf)).
  destruct H as [e E|E Hk|i e E Hk Hi Ht|rows mm E Hk Hr Hp].
  - now apply hp_metric.
  - now apply hp_negk.
  - eapply hp_task_raise; eauto.
  - eapply hp_ok; eauto. now apply killed_run in Hp.
Qed.

(** local scaling and NICDM: the result with one job *)
Theorem C161_local_scaling : forall (vexp : f64 -> f64) part p (D : arr2 f64) k metric test cpu r r1, 1 < p ->
  local_scaling_killed vexp part p D k metric test r -> local_scaling vexp part D k metric test cpu 1 r1 -> agree r r1.
Proof.
  intros vexp part p D k metric test cpu r r1 Hp H H1.
  assert (J : (1 < (if Z.of_nat p =? -1 then Z.of_nat cpu else Z.of_nat p))%Z)
    by (destruct (Z.eqb_spec (Z.of_nat p) (-1)); lia).
  apply (C29_ls_schedule_independent vexp part D k metric test cpu (Z.of_nat p) 1 r r1); [unfold workers; lia|unfold workers; cbn; lia| |exact H1].
  destruct H as [e E|rs r data E A B].
  - now apply ls_fail.
  - apply killed_run in A, B. eapply ls_pool; eauto.
Qed.
Theorem C161_nicdm : forall (vexp vln : f64 -> f64) vsum part p (D : arr2 f64) k metric test cpu r r1, 1 < p ->
  nicdm_killed vexp vln vsum part p D k metric test r -> nicdm vexp vln vsum part D k metric test cpu 1 r1 -> agree r r1.
Proof.
  intros vexp vln vsum part p D k metric test cpu r r1 Hp H H1.
  assert (J : (1 < (if Z.of_nat p =? -1 then Z.of_nat cpu else Z.of_nat p))%Z)
    by (destruct (Z.eqb_spec (Z.of_nat p) (-1)); lia).
  apply (C29_nicdm_schedule_independent vexp vln vsum part D k metric test cpu (Z.of_nat p) 1 r r1); [|exact H1].
  destruct H as [e E|rs r data E A B].
  - now apply ni_fail.
  - apply killed_run in A, B. eapply ni_pool; eauto.
Qed.

(** shared nearest neighbours: the result without worker processes *)
Theorem C161_snn : forall (argpart : list f64 -> list nat -> list nat) p (D : arr2 f64) k metric r,
  snn_killed argpart p D k metric r ->
  match r, snn_serial argpart D k metric with
  | Ok M, Ok M' => eq2 M M'
  | Raise e, Raise e' => e = e'
  | _, _ => False
  end.
Proof.
  intros argpart p D k metric r H. apply (proj2 (C15_snn_parallel_equals_serial argpart D k metric)).
  assert (S : forall x, (check_distance_matrix_shape (Dense [nrow D; ncol D]) ;; check_valid_metric_parameter metric)%py = Ok x ->
    check_distance_matrix_shape (Dense [nrow D; ncol D]) = Ok tt /\ check_valid_metric_parameter metric = Ok tt).
  { intros x. destruct (check_distance_matrix_shape _) as [[]|]; [|discriminate]. cbn. intros E. split; [reflexivity|].
    destruct (check_valid_metric_parameter metric) as [[]|]; [reflexivity|discriminate]. }
  destruct H as [e E|i e E Hi Ht|hoods knn sim E Hh H1 H2].
  - destruct (check_distance_matrix_shape (Dense [nrow D; ncol D])) as [[]|e'] eqn:E1.
    + apply sp_metric; [exact E1|exact E].
    + cbn in E. injection E as <-. now apply sp_shape.
  - apply S in E as (E1 & E2). eapply sp_task; eauto.
  - apply S in E as (E1 & E2). apply killed_run in H1, H2. eapply sp_ok; eauto.
Qed.

(** the other functions: one of the outcomes without killed workers, which C45,
    C56, C58, C12 and C51, C68 and C78 compare with the results of one job *)
Section Others.
  Context {V : Type} {N : Num V}.
  Theorem C161_simhub : forall argsort vln vsum p (D : arr2 V) train test s ret_dist r,
    simhubIN_killed vln vsum argsort p D train test s ret_dist r ->
    simhubIN_parallel argsort vln vsum D train test s ret_dist r.
  Proof.
    intros argsort vln vsum p D train test s ret_dist r H. destruct H as [e E|knn data E H1 H2].
    - now apply shp_raise.
    - apply killed_run in H1, H2. eapply shp_ok; eauto.
  Qed.
  Theorem C161_localized_centering : forall vsum vpow argpart p (X : arr2 V) Y kappa gamma cpu r, 1 < p ->
    localized_centering_killed vsum vpow argpart p X Y kappa gamma r ->
    localized_centering vsum vpow argpart X Y kappa gamma cpu (Z.of_nat p) r.
  Proof.
    intros vsum vpow argpart p X Y kappa gamma cpu r Hp H.
    assert (J : (1 < (if Z.of_nat p =? -1 then Z.of_nat cpu else Z.of_nat p))%Z)
      by (destruct (Z.eqb_spec (Z.of_nat p) (-1)); lia).
    destruct H as [e E|sim S e W E1 E2 E3|sim S la buf W E1 E2 E3 H].
    - now apply lc_fail_dot.
    - eapply lc_fail; eauto.
    - apply killed_run in H. eapply lc_pool; eauto.
  Qed.
  Theorem C161_dis_sim_local : forall vsum argpart p (X : arr2 V) k r, 1 < p ->
    dis_sim_local_killed vsum argpart p X k r -> dis_sim_local vsum argpart X k (Z.of_nat p) None r.
  Proof.
    intros vsum argpart p X k r Hp H. destruct H as [e E|D0 c E H].
    - apply dsl_bad; [exact I|]. cbv zeta. rewrite E. reflexivity.
    - apply dsl_self; [exact E|]. destruct H as [e H|nn buf H1 H2].
      + now apply dc_fail.
      + apply killed_run in H2. eapply dc_pool; eauto. lia.
  Qed.
  Theorem C161_class : forall rdist argpart p (X Y : arr2 V) metric k kth start end_ bs r, p <> 1 ->
    k_neighbors_killed argpart rdist p X Y metric k kth start end_ bs r ->
    k_neighbors rdist argpart X Y metric k kth start end_ bs (Z.of_nat p) r.
  Proof.
    intros rdist argpart p X Y metric k kth start end_ bs r Hp H. destruct H as [E|nb i e E Hi Ht|nb nns buf E Hm H].
    - now apply kn_zero.
    - eapply kn_fail; eauto. lia.
    - apply killed_run in H. eapply kn_pool; eauto. lia.
  Qed.
  Theorem C161_approximate_mp : forall sdist vstore p metric ns (Xt X : arr2 V) r, p <> 1 ->
    transform_mp_killed sdist vstore p metric ns Xt X r ->
    transform_mp_fixed sdist vstore metric ns (Z.of_nat p) Xt X r.
  Proof.
    intros sdist vstore p metric ns Xt X r Hp H. destruct H as [E|e E1 E2|buf E1 E2 H].
    - now apply tm_metric.
    - now apply tm_check.
    - apply killed_run in H. eapply tm_pool; eauto. lia.
  Qed.
  Theorem C161_sparse_mp : forall p (S : smat V) min_nnz test_ind r,
    srow S = scol S -> test_ind_rejected test_ind = false ->
    mp_empiric_sparse_killed p S min_nnz r -> mp_empiric_sparse S "similarity" test_ind min_nnz r.
  Proof.
    intros p S min_nnz test_ind r Sq Ht (data & H & ->). apply killed_run in H. apply mpes_ok; auto.
  Qed.
End Others.

(* ------------------------------------------------------------------ *)
(** ** (2) A pool of which a worker was killed at work never returns *)
Theorem C161_lost_task_never_returns : forall {C V T} (ceq : C -> C -> bool) (writes : T -> list (C * V)) p m tasks s w s' s'',
  khistory ceq writes p (kstart m tasks) s ->
  ks_work s w <> WIdle -> kkill p w s s' ->
  khistory ceq writes p s' s'' -> ~ returns tasks s''.
Proof.
  intros C V T ceq writes p m tasks s w s' s'' H1 B K H2 R. unfold returns in R.
  pose proof (lost_never_returns ceq writes p m tasks s w s' s'' H1 B K H2). lia.
Qed.

(** ** (3) Otherwise every pool returns: it can always go on until it has all results,
    and it cannot go on for ever.  Killed workers that were waiting do no harm, unless
    they held a lock. *)
Definition harmless_step {C V T} (ceq : C -> C -> bool) (writes : T -> list (C * V)) (p : nat) (s s' : kstate) : Prop :=
  kwork ceq writes p s s' \/ exists w, kkill p w s s' /\ ks_work s w = WIdle /\ ks_get s' = true /\ ks_put s' = true.
Theorem C161_otherwise_returns : forall {C V T} (ceq : C -> C -> bool) (writes : T -> list (C * V)) p m tasks s, 0 < p ->
  clos_refl_trans_1n _ (harmless_step ceq writes p) (kstart m tasks) s ->
  (returns tasks s \/ exists s', kwork ceq writes p s s') /\
  Acc (fun b a => kwork ceq writes p a b) s /\
  exists s', clos_refl_trans_1n _ (kwork ceq writes p) s s' /\ returns tasks s'.
Proof.
  intros C V T ceq writes p m tasks s Hp H.
  assert (A : alive p (length tasks) s).
  { assert (G : forall a b, clos_refl_trans_1n _ (harmless_step ceq writes p) a b -> alive p (length tasks) a -> alive p (length tasks) b).
    { induction 1 as [|a b c H1 _ IH]; [auto|]. intros A. apply IH. eapply harmless_alive; eauto. }
    apply (G _ _ H), start_alive. }
  split; [now apply alive_progress|]. split; [apply work_acc|]. now apply alive_can_return.
Qed.

(** ** A case: three objects and k = 1 (the matrix of C157).  Two workers.  If the second is
    killed while it waits, hubness still returns, with the right occurrences; if it is killed
    after it took the second row, nothing is ever returned. *)
Definition rows3 : list (list nat) := [[2]; [2]; [1]].
Definition task3 (i : nat) : list (hub_cell * nat) := hub_task i (nth i rows3 []).
Theorem C161_witness :
  (exists s1, kkill 2 1 (kstart (fun _ : hub_cell => 0) [[0]; [1]; [2]]) s1 /\
     exists s2, khistory cell_eq (chunk_writes task3) 2 s1 s2 /\ returns [[0]; [1]; [2]] s2 /\
     hubness_killed ref_argpart 2 false exD 1 "distance" true ex_rps
       (let Dk := read_rows 3 1 (ks_main s2) in Ok (HubOut Dk (bincount (concat Dk) 3)))) /\
  (forall o, hubness_killed ref_argpart 2 false exD 1 "distance" true ex_rps (Ok o) -> out_Nk o = [0; 1; 2]) /\
  (exists s1 s2, khistory cell_eq (chunk_writes task3) 2 (kstart (fun _ : hub_cell => 0) [[0]; [1]; [2]]) s1 /\
     kkill 2 1 s1 s2 /\ forall s3, khistory cell_eq (chunk_writes task3) 2 s2 s3 -> ~ returns [[0]; [1]; [2]] s3).
Proof.
  split; [|split].
  - set (s0 := kstart (fun _ : hub_cell => 0) [[0]; [1]; [2]]).
    assert (K : kkill 2 1 s0 (KState (ks_main s0) (upd (ks_work s0) 1 WIdle) (ks_queue s0) (ks_done s0) true true))
      by (apply k_kill; auto).
    eexists. split; [exact K|]. set (s1 := KState _ _ _ _ _ _).
    destruct (C161_otherwise_returns cell_eq (chunk_writes task3) 2 (fun _ => 0) [[0]; [1]; [2]] s1 ltac:(lia)) as (_ & _ & s2 & R & D).
    { eapply Relation_Operators.rt1n_trans; [|apply rt1n_refl]. right. exists 1. split; [exact K|]. repeat split. }
    assert (Hh : khistory cell_eq (chunk_writes task3) 2 s1 s2).
    { clear -R. induction R as [|a b c H _ IH]; [apply rt1n_refl|]. eapply Relation_Operators.rt1n_trans; [left; exact H|exact IH]. }
    exists s2. split; [exact Hh|]. split; [exact D|].
    assert (Er : mapM (fun i => hub_row_nn ref_argpart "distance" (hub_kth_par "distance" (nrow exD) (ncol exD) (hub_k 1 (ncol exD)))
                       (hub_shuffle true ex_rps i) (hub_row "distance" (hub_prepare false "distance" exD) i))
           (seq 0 (nrow exD)) = Ok rows3) by (vm_compute; reflexivity).
    refine (hk_ok ref_argpart 2 false exD 1%Z "distance" true ex_rps rows3 (ks_main s2) eq_refl _ Er _); [vm_compute; discriminate|].
    exists [[0]; [1]; [2]], s2. split; [reflexivity|]. split; [|split; [exact D|reflexivity]].
    eapply Relation_Operators.rt1n_trans; [right; exists 1; exact K|exact Hh].
  - intros o H. apply C161_hubness in H; [|exact ex_argpart|right; reflexivity|exact ex_rps_wf].
    pose proof ex_run as R. rewrite <- H in R. injection R as _ R. exact R.
  - set (s0 := kstart (fun _ : hub_cell => 0) [[0]; [1]; [2]]).
    assert (T1 := k_take cell_eq (chunk_writes task3) 2 s0 0 [0] [[1]; [2]] ltac:(lia) eq_refl eq_refl eq_refl).
    set (s1 := KState _ _ _ _ _ _) in T1.
    assert (T2 := k_take cell_eq (chunk_writes task3) 2 s1 1 [1] [[2]] ltac:(lia) eq_refl eq_refl eq_refl).
    set (s2 := KState _ _ _ _ _ _) in T2.
    assert (H2 : khistory cell_eq (chunk_writes task3) 2 s0 s2).
    { eapply Relation_Operators.rt1n_trans; [left; exact T1|]. eapply Relation_Operators.rt1n_trans; [left; exact T2|apply rt1n_refl]. }
    assert (K : kkill 2 1 s2 (KState (ks_main s2) (upd (ks_work s2) 1 WIdle) (ks_queue s2) (ks_done s2) true true))
      by (apply k_kill; auto).
    eexists s2, _. split; [exact H2|]. split; [exact K|]. intros s3 H3.
    assert (B : ks_work s2 1 <> WIdle) by discriminate.
    exact (C161_lost_task_never_returns cell_eq (chunk_writes task3) 2 (fun _ => 0) [[0]; [1]; [2]] s2 1 _ s3 H2 B K H3).
Qed.

Print Assumptions C161_hubness.
Print Assumptions C161_local_scaling.
Print Assumptions C161_nicdm.
Print Assumptions C161_snn.
Print Assumptions C161_simhub.
Print Assumptions C161_localized_centering.
Print Assumptions C161_dis_sim_local.
Print Assumptions C161_class.
Print Assumptions C161_approximate_mp.
Print Assumptions C161_sparse_mp.
Print Assumptions C161_lost_task_never_returns.
Print Assumptions C161_otherwise_returns.
Print Assumptions C161_witness.
