(** The programs of M_InPlace.v that change their working copy while they go
    through its rows: hubness, score, Mutual Proximity with Gamma
    distributions; and the aliases of dis_sim_local. *)
From Coq Require Import String.
From Coq Require Import ZArith List Arith Lia Bool.
From Verif Require Import Py Num Arr Sort S_Neighbors M_IO M_Hubness M_GK M_SNN M_KNN M_LS M_MPEmpiric
  M_Approx M_MPDist M_Simhub M_Dist M_Centering M_ID Heap S_Heap P_Heap M_InPlace P_InPlace.
Import ListNotations.
Local Open Scope heap_scope.

Lemma mask_region_at {V} (A : arr2 V) sel p v x y :
  at2 (mask_region A sel p v) x y = if sel x y && p (at2 A x y) then v else at2 A x y.
Proof. reflexivity. Qed.

Section Rows.
  Context {V : Type} {N : Num V}.
  Variable argpart : list V -> list nat -> list nat.
  Variable argsort : list V -> list nat.
  Variable rp : nat -> list nat -> list nat.
  Variable sh : nat -> nat -> list nat -> list nat.

  Lemma list_set_rowl (A : arr2 V) i v :
    list_set (rowl A i) i v = map (fun y => if y =? i then v else at2 A i y) (seq 0 (ncol A)).
  Proof.
    unfold list_set, rowl. rewrite map_length, seq_length. apply map_ext_in. intros y Hy.
    destruct (y =? i); [reflexivity|]. apply in_seq in Hy.
    rewrite (nth_indep _ v (at2 A i 0)) by (rewrite map_length, seq_length; lia).
    rewrite map_nth, seq_nth by lia. reflexivity.
  Qed.

  (** the row of hubness, after the writes to the row and nothing else *)
  Lemma hub_row_run (h : heap V) metric (P A : arr2 V) i :
    nrow A = nrow P -> ncol A = ncol P -> (forall y, at2 A i y = at2 P i y) ->
    exists A', nrow A' = nrow P /\ ncol A' = ncol P /\ (forall x y, x <> i -> at2 A' x y = at2 A x y) /\
      ip_hub_row (length h + 0) metric i (h ++ [A]) = (Ok (hub_row metric P i), h ++ [A']).
  Proof.
    intros Rn Cn At. unfold ip_hub_row, hub_row.
    erewrite run_ok by (apply run_local; reflexivity).
    rewrite Rn, Cn.
    destruct (nrow P =? ncol P).
    - erewrite run_ok by apply run_upd. cbn [upd_nth].
      erewrite run_ok by apply run_upd. cbn [upd_nth].
      erewrite run_ok by (apply run_local; reflexivity).
      eexists. split; [|split; [|split; [|unfold p_ret; f_equal; f_equal]]]; [exact Rn | exact Cn | |].
      + intros x y Hx. rewrite mask_region_at. simpl. apply Nat.eqb_neq in Hx. rewrite Hx. reflexivity.
      + rewrite list_set_rowl. unfold rowl. simpl. rewrite Cn, map_map. apply map_ext. intros y.
        rewrite Nat.eqb_refl. simpl. rewrite (At y). destruct (y =? i); destruct (nisfin _); reflexivity.
    - destruct (is_dist metric).
      + erewrite run_ok by apply run_upd. cbn [upd_nth].
        erewrite run_ok by apply run_upd. cbn [upd_nth].
        erewrite run_ok by (apply run_local; reflexivity).
        eexists. split; [|split; [|split; [|unfold p_ret; f_equal; f_equal]]]; [exact Rn | exact Cn | |].
        * intros x y Hx. rewrite !mask_region_at. simpl. apply Nat.eqb_neq in Hx. rewrite Hx. reflexivity.
        * unfold rowl. simpl. rewrite Cn, !map_map. apply map_ext. intros y.
          rewrite Nat.eqb_refl. simpl. rewrite (At y). destruct (neq _ _); destruct (nisfin _); reflexivity.
      + erewrite run_ok by reflexivity.
        erewrite run_ok by apply run_upd. cbn [upd_nth].
        erewrite run_ok by (apply run_local; reflexivity).
        eexists. split; [|split; [|split; [|unfold p_ret; f_equal; f_equal]]]; [exact Rn | exact Cn | |].
        * intros x y Hx. rewrite mask_region_at. simpl. apply Nat.eqb_neq in Hx. rewrite Hx. reflexivity.
        * unfold rowl. simpl. rewrite Cn, !map_map. apply map_ext. intros y.
          rewrite Nat.eqb_refl. simpl. rewrite (At y). destruct (nisfin _); reflexivity.
  Qed.

  Lemma ip_hubness_pure h a D k metric shuffle_equal rps : nth_error h a = Some D ->
    pure_value (ip_hubness argpart a k metric shuffle_equal rps) h
               (hubness_serial argpart false D k metric shuffle_equal rps).
  Proof.
    intros E. apply good_value. unfold ip_hubness, hubness_serial.
    eapply good_get_caller; [exact E|].
    h_lift. cbv zeta. h_copy. h_lift.
    set (P := hub_prepare false metric D).
    assert (PN : nrow P = nrow D /\ ncol P = ncol D).
    { unfold P, hub_prepare. destruct (nrow D =? ncol D); auto. }
    set (kth := hub_kth_ser metric (nrow D) (ncol D) (hub_k k (ncol D))).
    match goal with |- good _ _ (p_bind ?pre ?k _) _ =>
      assert (R : forall k' : unit -> prog V hub_out,
        p_bind pre (fun u => p_bind (p_upd (length h + 0)
          (fun A => mask_value A (fun x => negb (nisfin x)) (hub_dself metric))) k') (h ++ [D]) =
        k' tt (h ++ [P])) end.
    { intros k'. unfold P, hub_prepare. destruct (nrow D =? ncol D).
      - unfold p_fill. erewrite run_ok by apply run_upd. cbn [upd_nth].
        erewrite run_ok by apply run_upd. reflexivity.
      - erewrite run_ok by reflexivity. erewrite run_ok by apply run_upd. reflexivity. }
    rewrite R. clear R.
    destruct (run_map_inv h (fun done l => exists A, l = [A] /\ nrow A = nrow P /\ ncol A = ncol P /\
                 forall x y, ~ In x done -> at2 A x y = at2 P x y)
               (fun i => p_bind (ip_hub_row (length h + 0) metric i) (fun d =>
                  p_lift (hub_row_nn argpart metric kth (hub_shuffle shuffle_equal rps i) d)))
               (fun i => hub_row_nn argpart metric kth (hub_shuffle shuffle_equal rps i) (hub_row metric P i))
               (seq 0 (nrow D))) with (l := [P]) as (l' & R).
    - intros done t rest l Es (A & -> & Rn & Cn & At).
      assert (Nt : ~ In t done).
      { pose proof (seq_NoDup (nrow D) 0) as ND. rewrite Es in ND. apply NoDup_remove_2 in ND.
        intros I. apply ND, in_or_app. auto. }
      destruct (hub_row_run h metric P A t Rn Cn (fun y => At t y Nt)) as (A' & Rn' & Cn' & Ao & Run).
      exists [A']. split.
      + exists A'. repeat split; auto. intros x y Hx.
        rewrite Ao; [apply At|]; intros C; apply Hx, in_or_app; [auto | right; left; auto].
      + erewrite run_ok by exact Run. reflexivity.
    - exists P. auto.
    - unfold p_bind at 1. rewrite R. destruct (mapM _ (seq 0 (nrow D))) as [Dk|e]; exists l'; simpl; auto.
  Qed.

  Lemma fold_combine {S T B} (f : S -> T -> B -> S) (g : T -> B) ts s :
    fold_left (fun st ip => f st (fst ip) (snd ip)) (combine ts (map g ts)) s =
    fold_left (fun st i => f st i (g i)) ts s.
  Proof. revert s. induction ts as [|t ts IH]; intros s; simpl; auto. Qed.

  Lemma ip_score_pure h a D target ks metric test sample : nth_error h a = Some D ->
    pure_value (ip_score argsort rp sh a target ks metric test sample) h
               (score argsort rp sh D target ks metric test sample).
  Proof.
    intros E. apply good_value. unfold ip_score, score.
    eapply good_get_caller; [exact E|].
    apply good_lift; intros [] Hs. h_lift. h_lift. h_copy. cbv zeta. h_lift.
    set (points := match test with None => seq 0 (nrow D) | Some t => t end).
    set (classes := map (class_index (unique_labels target)) target).
    set (D' := match sample with None => D | Some s => set_cells s (knn_self metric) D end).
    match goal with |- good _ _ (p_bind ?pre ?k _) ?r =>
      assert (R : (match sample with Some s => existsb (fun x => nrow D <=? x) s | None => false end) = false ->
                  pre (h ++ [D]) = (Ok tt, h ++ [D'])) end.
    { unfold D'. destruct sample as [s|]; [|reflexivity]. intros Hx.
      pose proof (run_cells h [D] 0 D s (knn_self metric) eq_refl) as R. rewrite Hx in R.
      apply R. apply sample_fits_length in Hs. lia. }
    destruct (match sample with Some s => existsb (fun x => nrow D <=? x) s | None => false end) eqn:Hx.
    { destruct sample as [s|]; [|discriminate].
      pose proof (run_cells h [D] 0 D s (knn_self metric) eq_refl) as R'. rewrite Hx in R'.
      destruct R' as (l' & R'); [apply sample_fits_length in Hs; lia|].
      erewrite run_raise by exact R'. exists l'. simpl. auto. }
    erewrite run_ok by (apply R; reflexivity). clear R. cbn [bind guard]. h_lift. h_lift.
    set (sampled := match sample with None => false | Some _ => true end).
    match goal with |- good _ _ (p_bind (p_map _ ?b) _ _) _ =>
      destruct (run_map_inv h (fun _ l => exists A, l = [A] /\ nrow A = nrow D' /\ ncol A = ncol D' /\
                 if sampled then A = D' else forall x y, x <> y -> at2 A x y = at2 D' x y)
               b (fun i => Ok (knn_point argsort rp sh metric sampled D' ks (length (unique_labels target))
                     (match sample with None => classes | Some s => take 0 classes s end)
                     (match sample, test with
                      | Some s, _ => seq 0 (length s)
                      | None, None => seq 0 (match test with None => nrow D | Some t => length t end)
                      | None, Some t => filter (fun x => negb (existsb (Nat.eqb x) t))
                                          (seq 0 (match test with None => nrow D | Some t => length t end))
                      end) i)) points) with (l := [D']) as (l' & R) end.
    - intros done t rest l Es (A & -> & Rn & Cn & At). unfold sampled, D' in *. destruct sample as [s|].
      + subst A. exists [set_cells s (knn_self metric) D]. split; [eexists; split; [reflexivity|]; auto|].
        erewrite run_ok by reflexivity. erewrite run_ok by (apply run_local; reflexivity). reflexivity.
      + exists [set2 A t t (knn_self metric)]. split.
        * eexists. split; [reflexivity|]. repeat split; [exact Rn | exact Cn|]. intros x y Hxy. simpl.
          destruct (x =? t) eqn:Ex; destruct (y =? t) eqn:Ey; simpl; auto.
          apply Nat.eqb_eq in Ex, Ey. congruence.
        * erewrite run_ok by apply run_upd. cbn [upd_nth].
          erewrite run_ok by (apply run_local; reflexivity). unfold p_ret, knn_point.
          assert (Q : rowl (set2 A t t (knn_self metric)) t = knn_row metric false D t).
          { unfold rowl, knn_row. simpl. rewrite Cn. apply map_ext. intros y. rewrite Nat.eqb_refl. simpl.
            destruct (y =? t) eqn:Ey; [reflexivity|]. apply At. apply Nat.eqb_neq in Ey. auto. }
          rewrite Q. reflexivity.
    - exists D'. unfold sampled. destruct sample; auto.
    - rewrite (mapM_ok_map _ _ _ (fun a _ => eq_refl)) in R.
      erewrite run_ok by exact R. unfold p_ret. exists l'. simpl. split; [reflexivity|].
      apply (fold_combine (fun st i p => zip_upd _ i (nth i classes 0) p st)).
  Qed.
End Rows.

(** ** Mutual Proximity with Gamma distributions *)

Lemma seq_prefix n (done rest : list nat) t : seq 0 n = done ++ t :: rest ->
  done = seq 0 t /\ t < n.
Proof.
  intros E.
  assert (L : length done < n).
  { pose proof (f_equal (@length nat) E) as L. rewrite seq_length, app_length in L. simpl in L. lia. }
  assert (T : t = length done).
  { pose proof (f_equal (fun l => nth (length done) l 0) E) as T. cbv beta in T.
    rewrite seq_nth in T by exact L. rewrite app_nth2, Nat.sub_diag in T by lia. simpl in T. lia. }
  subst t. split; [|exact L].
  replace n with (length done + (n - length done)) in E by lia. rewrite seq_app in E.
  apply (f_equal (firstn (length done))) in E.
  rewrite !firstn_app, seq_length, Nat.sub_diag, firstn_all in E. simpl in E.
  rewrite !app_nil_r in E. rewrite <- E at 1. apply firstn_all2. rewrite seq_length. lia.
Qed.

Section Gamma.
  Context {V : Type} {N : Num V}.
  Variables (vsum : list V -> V) (vgam : V -> V -> V).
  Hypothesis nan_lt : nlt (V:=V) nnan n0 = false.
  Hypothesis nan_le : nle (V:=V) nnan n0 = false.

  Lemma ip_gammai_pure metric test :
    pure_function (fun D => ip_gammai vsum vgam D metric test) (fun D => gammai vsum vgam D metric test).
  Proof.
    intros h a D E. apply good_pure. unfold ip_gammai, gammai.
    eapply good_get_caller; [exact E|].
    h_lift. h_lift. cbv zeta. h_copy. unfold p_fill at 1. h_upd. h_get. h_new. h_new. unfold p_zeros. h_new.
    unfold gammai_core.
    set (n := nrow D). set (Dn := fill_diagonal D nnan).
    set (mu := fun j => vmean_ vsum (col_obs Dn (train_rows n test) j)).
    set (va := fun j => no_zero (vvar1 vsum (col_obs Dn (train_rows n test) j))).
    set (A := fun j => ndiv (nmul (mu j) (mu j)) (va j)).
    set (B := fun j => ndiv (va j) (mu j)).
    set (v := fun i j => ga_value vgam metric (at2 Dn i j) (at2 Dn j i) (A i) (B i) (A j) (B j)).
    pose (spec := fun done => fold_left (fun M i => setrow M i (i + 1) n (v i)) done (full2 n n (n0 (V:=V)))).
    match goal with |- good _ _ (p_bind (p_for _ ?bd) _ _) _ =>
      destruct (run_for_inv h (fun done l => exists Dc a b M, l = [Dc; a; b; M] /\
        (forall x y, ~ In x done -> ~ In y done -> at2 Dc x y = at2 Dn x y) /\
        (forall j, at2 a 0 j = A j \/ at2 a 0 j = if nlt (A j) n0 then nnan else A j) /\
        (forall j, at2 b 0 j = B j \/ at2 b 0 j = if nle (B j) n0 then nnan else B j) /\
        nrow M = n /\ ncol M = n /\ (forall x y, at2 M x y = at2 (spec done) x y)) bd (seq 0 n))
      with (l := [Dn; Arr2 1 n (fun _ j => A j); Arr2 1 n (fun _ j => B j); full2 n n n0])
      as (l' & (Dc & pa & pb & M & -> & _ & _ & _ & Rn & Cn & AtM) & R) end.
    - intros done t rest l Es (Dc & pa & pb & M & -> & HD & Ha & Hb & Rn & Cn & AtM).
      apply seq_prefix in Es as [-> Lt].
      assert (Ca : forall j, (if nlt (at2 pa 0 j) n0 then nnan else at2 pa 0 j) = if nlt (A j) n0 then nnan else A j).
      { intros j. destruct (Ha j) as [-> | ->]; [reflexivity|]. destruct (nlt (A j) n0) eqn:C; rewrite ?nan_lt, ?C; reflexivity. }
      assert (Cb : forall j, (if nle (at2 pb 0 j) n0 then nnan else at2 pb 0 j) = if nle (B j) n0 then nnan else B j).
      { intros j. destruct (Hb j) as [-> | ->]; [reflexivity|]. destruct (nle (B j) n0) eqn:C; rewrite ?nan_le, ?C; reflexivity. }
      erewrite run_ok by (apply (run_local h _ 1); reflexivity).
      erewrite run_ok by (apply (run_local h _ 2); reflexivity).
      unfold ip_gamcdf_row at 1.
      set (D1 := mask_region Dc (fun x y => (x =? t) && (t <? y) && (y <? n)) (fun w => nlt w n0) n0).
      erewrite run_ok.
      2:{ erewrite run_ok by apply run_upd. cbn [upd_nth]. fold D1.
          erewrite run_ok by (apply run_local; reflexivity). reflexivity. }
      unfold ip_gamcdf_col at 1.
      set (a' := mask_region pa (fun x y => (t <? y) && (y <? n)) (fun w => nlt w n0) nnan).
      set (b' := mask_region pb (fun x y => (t <? y) && (y <? n)) (fun w => nle w n0) nnan).
      set (D2 := mask_region D1 (fun x y => (y =? t) && (t <? x) && (x <? n)) (fun w => nlt w n0) n0).
      erewrite run_ok.
      2:{ erewrite run_ok by apply run_upd. cbn [upd_nth]. fold a'.
          erewrite run_ok by apply run_upd. cbn [upd_nth]. fold b'.
          erewrite run_ok by apply run_upd. cbn [upd_nth]. fold D2.
          erewrite run_ok by (apply run_local; reflexivity).
          erewrite run_ok by (apply (run_local h _ 1); reflexivity).
          erewrite run_ok by (apply (run_local h _ 2); reflexivity). reflexivity. }
      rewrite run_upd. cbn [upd_nth]. eexists. split; [|reflexivity].
      exists D2, a', b'. eexists. split; [reflexivity|]. split; [|split; [|split; [|split; [exact Rn|split; [exact Cn|]]]]].
      + intros x y Hx Hy. unfold D2, D1. rewrite !mask_region_at.
        assert (Nx : x <> t) by (intros ->; apply Hx, in_or_app; right; left; reflexivity).
        assert (Ny : y <> t) by (intros ->; apply Hy, in_or_app; right; left; reflexivity).
        apply Nat.eqb_neq in Nx, Ny. rewrite Nx, Ny. simpl.
        apply HD; intros I; [apply Hx | apply Hy]; apply in_or_app; auto.
      + intros j. unfold a'. rewrite mask_region_at. destruct ((t <? j) && (j <? n)); simpl; [|apply Ha].
        right. rewrite <- Ca. reflexivity.
      + intros j. unfold b'. rewrite mask_region_at. destruct ((t <? j) && (j <? n)); simpl; [|apply Hb].
        right. rewrite <- Cb. reflexivity.
      + intros x y. unfold spec. rewrite fold_left_app. cbn [fold_left setrow at2].
        destruct ((x =? t) && (t + 1 <=? y) && (y <? n)) eqn:C; [|apply AtM].
        apply andb_true_iff in C as [C C3]. apply andb_true_iff in C as [C1 C2].
        apply Nat.leb_le in C2. assert (C2' : (t <? y) = true) by (apply Nat.ltb_lt; lia).
        assert (Nyt : (y =? t) = false) by (apply Nat.eqb_neq; lia).
        assert (Nd : ~ In t (seq 0 t) /\ ~ In y (seq 0 t)) by (split; intros I; apply in_seq in I; lia).
        unfold v, ga_value, gamcdf, a', b', D2. rewrite !mask_region_at, C3, C2', Nat.eqb_refl.
        cbn [andb]. unfold D1. rewrite !mask_region_at, Nyt, Nat.eqb_refl, C2', C3. cbn [andb].
        rewrite !HD by tauto. rewrite !Ca, !Cb. reflexivity.
    - exists Dn. do 3 eexists. split; [reflexivity|]. repeat split; auto.
    - erewrite run_ok by exact R. unfold p_mirror. h_upd. unfold p_fill. h_upd.
      eapply good_ret_eq; [reflexivity|]. unfold mirror. fold n.
      repeat split; cbn [nrow ncol fill_diagonal zip2].
      + rewrite Rn. unfold for_. rewrite (proj1 (fold_setrow_shape (fun i => i + 1) (fun _ => n) v _ _)). reflexivity.
      + rewrite Cn. unfold for_. rewrite (proj2 (fold_setrow_shape (fun i => i + 1) (fun _ => n) v _ _)). reflexivity.
      + intros i j _ _. cbn [at2 fill_diagonal zip2 transpose]. rewrite !AtM. reflexivity.
  Qed.
End Gamma.
