(** Property C181: r_precision and its worker processes: order of the results,
    start methods, killed workers, end of the call. *)
From Coq Require Import String.
From Coq Require Import ZArith List Arith Lia Bool Relations.
From Verif Require Import Py Num NumT Arr Sort Conc S_Neighbors M_IO M_GK M_SNN M_KNN M_MPEmpiric M_SparseKNN M_Start M_RPool.
From Verif Require Import P_RPool.
Import ListNotations.
Local Open Scope py_scope.
Local Open Scope nat_scope.

(** In all statements the workers take their chunks, send their results and are
    killed in any order and at any moment. *)

(** ** (1) Whatever happened to the workers, a call that ends has the result, or
    the exception, of the same work done one object after the other *)
Theorem C181_result : forall {V} {N : Num V} (argpart : list V -> list nat -> list nat) rp sh (vsum : list V -> V)
    p dense (S : smat V) target metric yp r,
  r_precision_pool argpart rp sh vsum p dense S target metric yp r ->
  r = r_precision argpart rp sh vsum dense S target metric yp.
Proof.
  intros V N argpart rp sh vsum p dense S target metric yp r H. unfold r_precision. cbv zeta.
  destruct H as [e Hc|cl y rel chunks s rs Hc -> -> -> Hs Hh He]; cbv zeta in Hc;
    destruct (check_distance_matrix_shape _) as [[]|e1]; cbn [bind] in *; try congruence;
    destruct (check_distance_matrix_shape_fits_labels _ _) as [[]|e2]; cbn [bind] in *; try congruence;
    destruct (check_valid_metric_parameter metric) as [[]|e3]; cbn [bind] in *; try congruence;
    destruct (guard _ NotImplementedError) as [[]|e4]; cbn [bind] in *; try congruence.
  rewrite (ends_serial _ _ _ _ _ _ Hh He), Hs. reflexivity.
Qed.

(** ** (2) One worker is enough: the call can end, with that result *)
Lemma quiet_can_end {E T R} (f : E -> T -> result R) env p chunks : 0 < p ->
  exists s r, rhistory f env p (rstart chunks) s /\ rends chunks s r.
Proof.
  intros Hp. assert (H : forall m n s, quiet f env p n (rstart chunks) s -> weight p s <= m ->
    exists s r, rhistory f env p (rstart chunks) s /\ rends chunks s r).
  { induction m as [|m IH]; intros n s Q W; destruct (quiet_ends f env p chunks n s Hp Q) as [_ [[s' H]|[r H]]].
    - apply weight_step in H. lia.
    - exists s, r. split; [now apply quiet_history in Q|exact H].
    - apply weight_step in H as L. apply (IH (Datatypes.S n) s'); [eapply q_step; eauto|lia].
    - exists s, r. split; [now apply quiet_history in Q|exact H]. }
  eapply H; [constructor|apply le_n].
Qed.

Theorem C181_can_end : forall {V} {N : Num V} (argpart : list V -> list nat -> list nat) rp sh (vsum : list V -> V)
    p dense (S : smat V) target metric yp, 0 < p ->
  r_precision_pool argpart rp sh vsum p dense S target metric yp
    (r_precision argpart rp sh vsum dense S target metric yp).
Proof.
  intros V N argpart rp sh vsum p dense S target metric yp Hp.
  assert (X : exists r, r_precision_pool argpart rp sh vsum p dense S target metric yp r).
  { destruct (let shape := if dense then Dense [srow S; scol S] else Sparse (srow S) (scol S) in
       check_distance_matrix_shape shape ;;
       check_distance_matrix_shape_fits_labels shape (Dense [length target]) ;;
       check_valid_metric_parameter metric ;;
       guard (negb (is_sim metric) || dense) NotImplementedError) as [[]|e] eqn:Hc; [|exists (Raise e); now apply rpp_check].
    set (cl := unique_labels (target ++ [int_min])). set (y := map (class_index cl) target).
    set (rel := map (fun c => (Z.of_nat c - 1)%Z) (bincount y 0)).
    destruct (quiet_can_end (fun e i => let '(M, y, rel) := e in rprec_worker argpart rp sh M y rel yp (class_index cl int_min) i)
      (S, y, rel) p [seq 0 (srow S)] Hp) as (s & r & H1 & H2).
    eexists. apply (rpp_run argpart rp sh vsum p dense S target metric yp cl y rel [seq 0 (srow S)] s r); auto.
    cbn. now rewrite app_nil_r. }
  destruct X as [r X]. now rewrite <- (C181_result _ _ _ _ _ _ _ _ _ _ _ X).
Qed.

(** ** (3) As long as no worker is killed the call ends: no order of the steps makes the workers wait for
    each other, and with [m] chunks and [p] workers there are at most [3 m + p] steps *)
Theorem C181_ends : forall {E T R} (f : E -> T -> result R) env p chunks n s, 0 < p ->
  quiet f env p n (rstart chunks) s ->
  n <= 3 * length chunks + p /\ ((exists s', rwork f env p s s') \/ exists r, rends chunks s r).
Proof. intros. now apply quiet_ends. Qed.

(** ** (4) When a worker was killed while it had a chunk, the call does not return any more: all it can
    do is to raise, and only what an object before that chunk raises *)
Theorem C181_lost_chunk : forall {E T R} (f : E -> T -> result R) env p chunks s w e c ch s' s'' r,
  rhistory f env p (rstart chunks) s -> rs_work s w = RBusy e c ch -> rkill p w s s' ->
  rhistory f env p s' s'' -> rends chunks s'' r ->
  exists x, r = Raise x /\ mapM (f env) (concat (firstn c chunks)) = Raise x.
Proof. intros. eapply lost_end; eauto. Qed.

(** ** A concrete case: two workers, one of which is killed and replaced before it has a chunk; the second
    chunk is ready before the first one; and a worker killed with a chunk *)
Definition add1 (e t : nat) : result nat := Ok (e + t).
Example C181_case : (exists s, rhistory add1 10 2 (rstart [[1; 2]; [3]]) s /\ rends [[1; 2]; [3]] s (Ok [11; 12; 13])) /\
  (exists s s', rhistory add1 10 2 (rstart [[1; 2]; [3]]) s /\ rs_work s 1 = RBusy 10 0 [1; 2] /\ rkill 2 1 s s').
Proof.
  split.
  - eexists. split.
    + eapply Relation_Operators.rt1n_trans; [left; apply (r_init add1 10 2 _ 1); [lia|reflexivity]|]. cbn.
      eapply Relation_Operators.rt1n_trans; [right; exists 1; apply (r_kill 2 1 _ true true); [lia|reflexivity|reflexivity]|]. cbn.
      eapply Relation_Operators.rt1n_trans; [left; apply (r_init add1 10 2 _ 1); [lia|reflexivity]|]. cbn.
      eapply Relation_Operators.rt1n_trans; [left; apply (r_init add1 10 2 _ 0); [lia|reflexivity]|]. cbn.
      eapply Relation_Operators.rt1n_trans; [left; eapply (r_take add1 10 2 _ 1); [lia|reflexivity|reflexivity|reflexivity]|]. cbn.
      eapply Relation_Operators.rt1n_trans; [left; eapply (r_take add1 10 2 _ 0); [lia|reflexivity|reflexivity|reflexivity]|]. cbn.
      eapply Relation_Operators.rt1n_trans; [left; eapply (r_result add1 10 2 _ 0); [lia|reflexivity|reflexivity|reflexivity]|]. cbn.
      eapply Relation_Operators.rt1n_trans; [left; eapply (r_result add1 10 2 _ 1); [lia|reflexivity|reflexivity|reflexivity]|]. cbn.
      eapply Relation_Operators.rt1n_trans; [left; eapply (r_order add1 10 2 _ _ [] []); reflexivity|]. apply rt1n_refl.
    + apply (re_ok _ _ [[11; 12]; [13]]); reflexivity.
  - eexists. eexists. split; [|split].
    + eapply Relation_Operators.rt1n_trans; [left; apply (r_init add1 10 2 _ 1); [lia|reflexivity]|]. cbn.
      eapply Relation_Operators.rt1n_trans; [left; eapply (r_take add1 10 2 _ 1); [lia|reflexivity|reflexivity|reflexivity]|]. apply rt1n_refl.
    + reflexivity.
    + apply (r_kill 2 1 _ true true); [lia|reflexivity|reflexivity].
Qed.

Print Assumptions C181_result.
Print Assumptions C181_can_end.
Print Assumptions C181_ends.
Print Assumptions C181_lost_chunk.
