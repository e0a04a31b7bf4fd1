(** The programs of M_InPlace.v compute what the models of the modules
    compute, and write to no array of the caller. *)
From Coq Require Import String.
From Coq Require Import ZArith List Arith Lia Bool.
From Verif Require Import Py Num Arr Sort S_Neighbors M_IO M_Hubness M_GK M_SNN M_KNN M_LS M_MPEmpiric
  M_Approx M_MPDist M_Simhub M_Dist M_Centering M_ID Heap S_Heap P_Heap M_InPlace.
Import ListNotations.
Local Open Scope heap_scope.

Lemma sample_fits_length n m s : check_sample_shape_fits (Dense [n; m]) (Dense [s]) = Ok tt -> s = m.
Proof.
  unfold check_sample_shape_fits, guard, dim0, dim1, size_of. simpl.
  destruct (n <? m); [discriminate|]. simpl. rewrite Nat.mul_1_r.
  destruct (m =? s) eqn:E; [|discriminate]. intros _. apply Nat.eqb_eq in E. auto.
Qed.

Lemma fold_setrow_shape {V} (lo hi : nat -> nat) (f : nat -> nat -> V) ts M :
  nrow (fold_left (fun M t => setrow M t (lo t) (hi t) (f t)) ts M) = nrow M /\
  ncol (fold_left (fun M t => setrow M t (lo t) (hi t) (f t)) ts M) = ncol M.
Proof. revert M. induction ts as [|t ts IH]; intros M; simpl; [auto|]. rewrite !(proj1 (IH _)), !(proj2 (IH _)). auto. Qed.

Lemma cells_shape {V} idx (v : V) M :
  nrow (set_cells idx v M) = nrow M /\ ncol (set_cells idx v M) = ncol M.
Proof.
  unfold set_cells, for_. generalize (seq 0 (length idx)). intros ts. revert M.
  induction ts as [|t ts IH]; intros M; simpl; [auto|]. rewrite !(proj1 (IH _)), !(proj2 (IH _)). auto.
Qed.

Ltac h_simpl := cbn [length app upd_nth nth_error nrow ncol].
Ltac h_lift := apply good_lift; intros ? ?; try match goal with u : unit |- _ => destruct u end.
Ltac h_copy := eapply good_copy; [eassumption|]; h_simpl.
Ltac h_upd := apply good_upd; h_simpl.
Ltac h_new := apply good_new; h_simpl.
Ltac h_get := eapply good_get; [reflexivity|]; h_simpl.

Section InPlace.
  Context {V : Type} {N : Num V}.
  Variable argpart : list V -> list nat -> list nat.
  Variable argsort : list V -> list nat.
  Variable part : list V -> list nat -> list V.
  Variables (vexp vln : V -> V) (vsum : list V -> V).
  Variables (vcdf vsf : V -> V -> V -> V) (vgam : V -> V -> V).

  Lemma ip_snn_pure k metric :
    pure_function (fun D => ip_snn argpart D k metric) (fun D => snn_serial argpart D k metric).
  Proof.
    intros h a D E. apply good_pure. unfold ip_snn, snn_serial.
    eapply good_get_caller; [exact E|].
    h_lift. h_lift. h_copy. unfold p_fill at 1. h_upd.
    eapply good_same.
    { apply run_map. intros t. erewrite run_ok by (apply run_local; reflexivity). reflexivity. }
    intros hoods Hh. cbv zeta. unfold p_zeros. h_new.
    eapply good_for.
    { intros t l' _ _. apply run_upd. }
    { discriminate. }
    h_simpl. unfold p_mirror. h_upd. unfold p_fill. h_upd.
    apply good_ret_ref. reflexivity.
  Qed.

  (** a row loop that reads the working copy (first local array) and writes the
      result (second local array) *)
  Ltac h_rows := eapply (good_for _ _ _ _ _ _ 1);
    [ intros t l' _ O; erewrite run_ok
        by (apply run_local with (i := 0); rewrite O by discriminate; reflexivity);
      apply run_upd
    | discriminate | h_simpl ].

  Lemma ip_ls_pure k metric test :
    pure_function (fun D => ip_ls part vexp D k metric test)
                  (fun D => local_scaling_serial vexp part D k metric test).
  Proof.
    intros h a D E. apply good_pure. unfold ip_ls, local_scaling_serial, ls_radii.
    eapply good_get_caller; [exact E|]. cbv zeta.
    destruct (check_distance_matrix_shape _) as [[]|e]; [|exists []; simpl; auto].
    destruct (check_valid_metric_parameter metric) as [[]|e]; [|exists []; simpl; auto].
    cbn [bind]. erewrite run_ok by reflexivity. erewrite run_ok by reflexivity.
    h_copy. unfold p_fill at 1. h_upd.
    eapply good_same.
    { apply run_map. intros t. erewrite run_ok by (apply run_local; reflexivity). reflexivity. }
    intros r Hr. cbv zeta. unfold p_zeros. h_new. h_rows.
    unfold p_mirror. h_upd. unfold p_fill. h_upd.
    apply good_ret_ref. reflexivity.
  Qed.

  Lemma ip_nicdm_pure k metric test :
    pure_function (fun D => ip_nicdm part vexp vln vsum D k metric test)
                  (fun D => nicdm_serial vexp vln vsum part D k metric test).
  Proof.
    intros h a D E. apply good_pure. unfold ip_nicdm, nicdm_serial, nicdm_radii.
    eapply good_get_caller; [exact E|]. cbv zeta.
    destruct (check_distance_matrix_shape _) as [[]|e]; [|exists []; simpl; auto].
    destruct (check_valid_metric_parameter metric) as [[]|e]; [|exists []; simpl; auto].
    destruct (is_sim metric); [exists []; simpl; auto|].
    cbn [bind guard]. do 3 (erewrite run_ok by reflexivity).
    h_copy. unfold p_fill at 1. h_upd.
    eapply good_same.
    { apply run_map. intros t. erewrite run_ok by (apply run_local; reflexivity). reflexivity. }
    intros r Hr. cbv zeta. unfold p_zeros. h_new. h_rows.
    unfold p_mirror. h_upd.
    apply good_ret_ref. reflexivity.
  Qed.

  Ltac h_cells H := eapply good_cells; [reflexivity | h_simpl; apply (sample_fits_length _ _ _ H) | |]; h_simpl.
  Ltac h_test := apply good_guard; [intros ->; reflexivity | intros ->; cbn [bind guard]].
  Ltac h_cells2 Hs Hx Hr Hc := eapply good_cells;
    [ reflexivity | rewrite Hc; apply (sample_fits_length _ _ _ Hs)
    | rewrite Hr, Hx; discriminate | intros _ ]; h_simpl.
  Ltac h_take Hc := unfold p_rows; h_get; apply good_new_last;
    rewrite ?(proj2 (cells_shape _ _ _)), Hc; reflexivity.
  Ltac h_shape Ds Hr Hc :=
    match goal with |- context [fold_left (fun M t => setrow M t (@?lo t) (@?hi t) (@?f t)) ?ts ?M0] =>
      pose proof (fold_setrow_shape lo hi f ts M0) as [Hr Hc];
      set (Ds := fold_left _ ts M0) in Hr, Hc |- *; cbn [nrow ncol full2] in Hr, Hc end.

  Lemma ip_snn_sample_pure k metric train test :
    pure_function (fun D => ip_snn_sample argsort D k metric train test)
                  (fun D => snn_sample argsort D k metric train test).
  Proof.
    intros h a D E. apply good_pure. unfold ip_snn_sample, snn_sample.
    eapply good_get_caller; [exact E|].
    apply good_lift; intros [] Hs. h_lift. h_copy. cbv zeta.
    h_cells Hs; [intros ->; reflexivity|]. intros Hx. rewrite Hx. cbn [bind guard].
    h_get. cbv zeta. unfold p_zeros. h_new. h_test.
    eapply good_for; [intros t l' _ _; apply run_upd | discriminate | h_simpl].
    h_shape Ds Hr Hc.
    destruct test as [t|].
    - h_cells2 Hs Hx Hr Hc. h_take Hc.
    - unfold p_fill. h_upd. apply good_ret_ref. reflexivity.
  Qed.

  Lemma ip_ls_sample_pure k metric train test :
    pure_function (fun D => ip_ls_sample part vexp D k metric train test)
                  (fun D => local_scaling_sample vexp part D k metric train test).
  Proof.
    intros h a D E. apply good_pure. unfold ip_ls_sample, local_scaling_sample.
    eapply good_get_caller; [exact E|].
    apply good_lift; intros [] Hs. h_lift. h_lift. h_copy. cbv zeta.
    h_cells Hs; [intros ->; reflexivity|]. intros Hx. rewrite Hx. cbn [bind guard].
    eapply good_same.
    { apply run_map. intros t. erewrite run_ok by (apply run_local; reflexivity). reflexivity. }
    intros r Hr0. cbv zeta. unfold p_zeros. h_new. h_test. h_rows.
    h_shape Ds Hr Hc.
    destruct test as [t|].
    - h_cells2 Hs Hx Hr Hc. h_take Hc.
    - unfold p_fill. h_upd. apply good_ret_ref. reflexivity.
  Qed.

  Lemma ip_nicdm_sample_pure k metric train test :
    pure_function (fun D => ip_nicdm_sample part vexp vln vsum D k metric train test)
                  (fun D => nicdm_sample vexp vln vsum part D k metric train test).
  Proof.
    intros h a D E. apply good_pure. unfold ip_nicdm_sample, nicdm_sample.
    eapply good_get_caller; [exact E|].
    apply good_lift; intros [] Hs. h_lift. h_lift. h_copy. cbv zeta.
    h_cells Hs; [intros ->; reflexivity|]. intros Hx. rewrite Hx. cbn [bind guard].
    eapply good_same.
    { apply run_map. intros t. erewrite run_ok by (apply run_local; reflexivity). reflexivity. }
    intros r Hr0. cbv zeta. unfold p_zeros. h_new. h_test. h_rows.
    h_shape Ds Hr Hc.
    destruct test as [t|].
    - h_cells2 Hs Hx Hr Hc. h_take Hc.
    - unfold p_fill. h_upd. apply good_ret_ref. reflexivity.
  Qed.

  Lemma ip_mp_empiric_pure metric test_ind :
    pure_function (fun D => ip_mp_empiric D metric test_ind)
                  (fun D => mp_empiric_full D metric test_ind).
  Proof.
    intros h a D E. apply good_pure. unfold ip_mp_empiric, mp_empiric_full.
    eapply good_get_caller; [exact E|].
    h_lift. h_lift. h_lift. h_copy. cbv zeta.
    unfold p_fill at 1. h_upd. unfold p_zeros. h_new. h_rows.
    unfold p_mirror. h_upd. unfold p_fill. h_upd.
    apply good_ret_ref. reflexivity.
  Qed.

  Lemma ip_mp_empiric_sample_pure idx metric test :
    pure_function (fun D => ip_mp_empiric_sample D idx metric test)
                  (fun D => mp_empiric_sample D idx metric test).
  Proof.
    intros h a D E. apply good_pure. unfold ip_mp_empiric_sample, mp_empiric_sample.
    eapply good_get_caller; [exact E|].
    apply good_lift; intros [] Hs. h_lift. h_copy. cbv zeta.
    h_cells Hs; [intros ->; reflexivity|]. intros Hx. rewrite Hx. cbn [bind guard].
    h_new. h_test. h_rows.
    h_shape Ds Hr Hc. h_cells2 Hs Hx Hr Hc.
    assert (Q : Ds = mp_sample_loop metric idx (match test with Some t => t | None => seq 0 (nrow D) end)
              (set_self_cells idx (mp_exclude metric) D) (full2 (nrow D) (ncol D) nnan)).
    { unfold mp_sample_loop. change (set_self_cells idx (mp_exclude metric) D) with (set_cells idx (mp_exclude metric) D).
      rewrite (proj2 (cells_shape _ _ _)). destruct test; reflexivity. }
    destruct test as [t|]; rewrite <- Q.
    - h_take Hc.
    - apply good_ret_ref. reflexivity.
  Qed.

  Lemma ip_gaussi_pure metric sample_size test :
    pure_function (fun D => ip_gaussi vsum vcdf vsf D metric sample_size test)
                  (fun D => gaussi vsum vcdf vsf D metric sample_size test None).
  Proof.
    intros h a D E. apply good_pure. unfold ip_gaussi, gaussi.
    eapply good_get_caller; [exact E|].
    h_lift. h_lift. h_copy. cbv zeta.
    unfold p_fill at 1. h_upd. h_lift. h_get. cbv zeta.
    unfold p_fill at 1. h_upd. unfold p_zeros. h_new. h_rows.
    unfold p_mirror. h_upd. unfold p_fill. h_upd.
    apply good_ret_ref. reflexivity.
  Qed.

  Lemma ip_gaussi_sample_pure idx metric test :
    pure_function (fun D => ip_gaussi_sample vsum vcdf vsf D idx metric test)
                  (fun D => gaussi_sample vsum vcdf vsf D idx metric test).
  Proof.
    intros h a D E. apply good_pure. unfold ip_gaussi_sample, gaussi_sample.
    eapply good_get_caller; [exact E|].
    apply good_lift; intros [] Hs. h_lift. h_copy. cbv zeta.
    h_cells Hs; [intros ->; reflexivity|]. intros Hx. rewrite Hx. cbn [bind guard].
    h_get. cbv zeta.
    eapply good_cells; [reflexivity | h_simpl; rewrite (proj2 (cells_shape _ _ _)); apply (sample_fits_length _ _ _ Hs)
      | rewrite (proj1 (cells_shape _ _ _)), Hx; discriminate | intros _; h_simpl].
    unfold p_zeros. h_new.
    apply good_guard.
    { destruct test as [t|]; [|discriminate]. intros ->. reflexivity. }
    intros Ht. h_rows. h_shape Ds Hr Hc. h_cells2 Hs Hx Hr Hc.
    destruct test as [t|].
    - rewrite Ht. cbn [bind guard]. h_take Hc.
    - apply good_ret_ref. reflexivity.
  Qed.

  Lemma ip_simhubIN_pure train test s ret_dist :
    pure_function (fun D => ip_simhubIN argsort vln vsum D train test s ret_dist)
                  (fun D => simhubIN_serial argsort vln vsum D train test s ret_dist).
  Proof.
    intros h a D E. apply good_pure. unfold ip_simhubIN, simhubIN_serial, shi_checks.
    eapply good_get_caller; [exact E|].
    destruct (shi_shape D train) as [[]|e] eqn:Hs; [|exists []; simpl; auto].
    cbn [bind]. erewrite run_ok by reflexivity. cbv zeta. h_copy.
    assert (G : existsb (fun i => nrow D <=? i) (match train with Some t => t | None => [] end) = false ->
      shi_index (nrow D) train = Ok tt /\
      ip_shi_exclude (length h + 0) train (h ++ [D]) = (Ok tt, h ++ [shi_dist D train])).
    { destruct train as [t|]; simpl.
      - intros Hx. unfold shi_index. rewrite Hx. split; [reflexivity|].
        pose proof (run_cells h [D] 0 D t ninf eq_refl) as R. rewrite Hx in R. apply R.
        apply sample_fits_length in Hs. lia.
      - intros _. split; [reflexivity|]. unfold p_fill. rewrite run_upd. reflexivity. }
    destruct (existsb (fun i => nrow D <=? i) (match train with Some t => t | None => [] end)) eqn:Hx.
    { destruct train as [t|]; [|discriminate]. unfold shi_index. rewrite Hx. cbn [bind guard].
      pose proof (run_cells h [D] 0 D t ninf eq_refl) as R. rewrite Hx in R.
      destruct R as (l' & R); [apply sample_fits_length in Hs; lia|].
      erewrite run_raise by (simpl; exact R). exists l'. simpl. auto. }
    destruct (G eq_refl) as [Hi Hrun]. rewrite Hi. cbn [bind].
    erewrite run_ok by exact Hrun. h_get. cbv zeta. unfold p_zeros. h_new.
    apply good_lift; intros [] _.
    eapply good_for; [intros t l' _ _; apply run_upd | discriminate | h_simpl].
    h_upd. h_shape Ds Hr Hc.
    unfold shi_finish. destruct ret_dist.
    - erewrite (run_ok (p_bind _ _)) by (erewrite run_ok by apply run_upd; apply run_upd). h_simpl.
      destruct test as [t|].
      + unfold p_rows. h_get. apply good_new_last. reflexivity.
      + unfold p_fill. h_upd. apply good_ret_ref. reflexivity.
    - erewrite run_ok by reflexivity.
      destruct test as [t|].
      + unfold p_rows. h_get. apply good_new_last. reflexivity.
      + unfold p_fill. h_upd. apply good_ret_ref. reflexivity.
  Qed.
End InPlace.
