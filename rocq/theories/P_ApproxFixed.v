(** Lemmas about approximate hubness reduction with fixed vantage points. *)
From Coq Require Import String.
From Coq Require Import ZArith List Arith Lia Bool Permutation Reals Lra.
From Verif Require Import Py Num NumT Arr Sort Conc S_Neighbors S_MP S_LS S_Approx M_Hubness M_SNN M_LS M_Dist M_HubnessClass M_Approx.
From Verif Require Import M_MPEmpiric P_Neighbors P_Hubness P_MPEmpiric P_HubnessClass.
Import ListNotations.
Local Open Scope nat_scope.

Lemma count_if_filter p n : count_if p n = length (filter p (seq 0 n)).
Proof.
  induction n as [|n IH]; [reflexivity|]. rewrite count_if_S, IH, seq_S, filter_app, app_length. cbn.
  destruct (p n); reflexivity.
Qed.

Section Fixed.
  Context {V : Type} {N : Num V} {toX : V -> xr} (CL : CmpLaws V N toX).
  Variable sdist : string -> nat -> (nat -> V) -> (nat -> V) -> V.
  Variable vstore : f64 -> V.

  Lemma check_array_iff (X : arr2 V) : check_array X = Ok tt <-> clean X.
  Proof.
    unfold check_array, guard, clean.
    destruct (Nat.eqb_spec (nrow X) 0); [split; [discriminate|intros (H & _); lia]|].
    destruct (Nat.eqb_spec (ncol X) 0); [split; [discriminate|intros (_ & H & _); lia]|]. cbn [orb].
    destruct (forallb _ _) eqn:E; cbn [negb].
    - split; [|reflexivity]. intros _. split; [lia|]. split; [lia|]. intros i f Hi Hf. rewrite forallb_forall in E.
      specialize (E i ltac:(apply in_seq; lia)). rewrite forallb_forall in E. apply E. apply in_seq. lia.
    - split; [discriminate|]. intros (_ & _ & H). exfalso. apply not_true_iff_false in E. apply E.
      apply forallb_forall. intros i Hi. apply in_seq in Hi. apply forallb_forall. intros f Hf. apply in_seq in Hf. apply H; lia.
  Qed.
  Lemma check_array_exc (X : arr2 V) e : check_array X = Raise e -> e = ValueError.
  Proof. unfold check_array, guard. destruct (_ || _); congruence. Qed.
  Lemma trans_check_iff (X Xt : arr2 V) : trans_check X Xt = Ok tt <-> clean X /\ ncol X = ncol Xt.
  Proof.
    unfold trans_check. destruct (check_array X) as [[]|e] eqn:E; cbn [bind].
    - apply check_array_iff in E. unfold guard. destruct (Nat.eqb_spec (ncol X) (ncol Xt)); cbn [negb]; split; try tauto; try discriminate.
    - split; [discriminate|]. intros (H & _). apply check_array_iff in H. congruence.
  Qed.
  Lemma trans_check_exc (X Xt : arr2 V) e : trans_check X Xt = Raise e -> e = ValueError.
  Proof.
    unfold trans_check. destruct (check_array X) as [[]|e'] eqn:E; cbn [bind].
    - unfold guard. destruct (negb _); congruence.
    - intros [= <-]. eapply check_array_exc; eauto.
  Qed.

  (** sampling worked *)
  Definition sampling_fits (s : sampling) (n ns : nat) : Prop :=
    match s with SRandom _ => ns < n | _ => True end.
  Lemma fit_ok_iff (Xall : arr2 V) s ns :
    (fit_check Xall ;; sampling_check s (nrow Xall) ns)%py = Ok tt <-> clean Xall /\ sampling_fits s (nrow Xall) ns.
  Proof.
    unfold fit_check. destruct (check_array Xall) as [[]|e] eqn:E; cbn [bind].
    - apply check_array_iff in E. unfold sampling_check, sampling_fits, guard. destruct s; try tauto.
      destruct (Nat.leb_spec (nrow Xall) ns); split; try discriminate; try tauto; try (intros (_ & H'); lia).
    - split; [discriminate|]. intros (H & _). apply check_array_iff in H. congruence.
  Qed.
  Lemma fit_exc (Xall : arr2 V) s ns e :
    (fit_check Xall ;; sampling_check s (nrow Xall) ns)%py = Raise e -> e = ValueError.
  Proof.
    unfold fit_check. destruct (check_array Xall) as [[]|e'] eqn:E; cbn [bind].
    - unfold sampling_check, guard. destruct s; try discriminate. destruct (_ <=? _); congruence.
    - intros [= <-]. eapply check_array_exc; eauto.
  Qed.

  (** *** mutual proximity *)
  Definition mp_val (metric : string) (Xt X : arr2 V) (ns i j : nat) : V :=
    vstore (nsub n1 (ndiv (nofnat (farther_vantage (fun l => sdist metric (ncol X) (at2 X i) (at2 Xt l))
                                           (fun l => sdist metric (ncol Xt) (at2 Xt j) (at2 Xt l)) (nrow Xt) j)) (nofnat ns))).
  Lemma mp_cell_val metric (Xt X : arr2 V) ns i j :
    mp_cell vstore (cross_dists sdist metric X Xt) (fill_diagonal (self_dists sdist metric Xt) ninf) ns i j = mp_val metric Xt X ns i j.
  Proof using CL.
    unfold mp_cell, mp_val. cbv zeta. do 4 f_equal. unfold farther_vantage. rewrite count_if_filter. cbn [ncol cross_dists].
    f_equal. apply filter_ext_in. intros l Hl. cbn [at2 cross_dists self_dists fill_diagonal].
    rewrite (Nat.eqb_sym j l). destruct (Nat.eqb_spec l j) as [->|H]; cbn [negb andb]; [|reflexivity].
    now rewrite (nlt_irrefl CL).
  Qed.
  Lemma for_rows (g : nat -> nat -> V) n m k : k <= n -> forall i j, i < n -> j < m ->
    at2 (for_ k (fun i M => setrow M i 0 m (g i)) (full2 n m nnan)) i j = if i <? k then g i j else nnan.
  Proof.
    induction k as [|k IH]; intros Hk i j Hi Hj; [rewrite for_0; reflexivity|].
    rewrite for_S. unfold setrow at 1. cbn [at2]. rewrite IH by lia.
    destruct (Nat.eqb_spec i k) as [->|H].
    - destruct (Nat.ltb_spec j m); [|lia]. destruct (Nat.ltb_spec k (S k)); [|lia]. reflexivity.
    - cbn [andb]. destruct (Nat.ltb_spec i k), (Nat.ltb_spec i (S k)); try lia; reflexivity.
  Qed.
  Lemma transform_mp_at metric ns nj (Xt X R : arr2 V) : transform_mp_fixed sdist vstore metric ns nj Xt X (Ok R) ->
    nrow R = nrow X /\ ncol R = nrow Xt /\
    forall i j, i < nrow X -> j < nrow Xt -> at2 R i j = mp_val metric Xt X ns i j.
  Proof using CL.
    intros H. inversion H as [| |H1 H2 H3 H4|buf H1 H2 H3 H4 H5]; subst.
    - match goal with |- nrow ?t = _ /\ _ => destruct (for_shape (nrow X) (fun i M => setrow M i 0 (nrow Xt) (mp_cell vstore (cross_dists sdist metric X Xt) (fill_diagonal (self_dists sdist metric Xt) ninf) ns i)) (full2 (nrow X) (nrow Xt) nnan)) as (A & B); [intros; split; reflexivity|] end.
      split; [exact A|]. split; [exact B|]. intros i j Hi Hj. rewrite for_rows by lia. destruct (Nat.ltb_spec i (nrow X)); [|lia]. apply mp_cell_val.
    - split; [reflexivity|]. split; [reflexivity|]. intros i j Hi Hj. cbn [at2].
      rewrite <- mp_cell_val.
      edestruct (pool_run_fun cell_eq cell_eq_spec (fun _ => n0 (V:=V)) buf) with
        (f := fun p : nat * nat => mp_cell vstore (cross_dists sdist metric X Xt) (fill_diagonal (self_dists sdist metric Xt) ninf) ns (fst p) (snd p)) (2 := H4) (c := (i, j)) as (P1 & _).
      + intros t c v Ht Hin. apply in_map_iff in Ht as (a & <- & _). apply in_map_iff in Hin as (b & E & _). now injection E as <- <-.
      + apply P1. eexists. split; [apply in_map_iff; exists i; split; [reflexivity|apply in_seq; lia]|].
        apply in_map_iff. exists j. split; [reflexivity|apply in_seq; lia].
  Qed.
  Lemma transform_mp_ex metric ns nj (Xt X : arr2 V) : exists r, transform_mp_fixed sdist vstore metric ns nj Xt X r.
  Proof.
    destruct (known_metric metric) eqn:E1; [|eexists; now apply tm_metric].
    destruct (trans_check X Xt) as [[]|e] eqn:E2; [|eexists; eapply tm_check; eauto].
    destruct (Z.eq_dec nj 1) as [->|H]; [eexists; eapply tm_serial; auto|].
    eexists. eapply tm_pool; auto. apply pool_run_exists.
  Qed.
End Fixed.
