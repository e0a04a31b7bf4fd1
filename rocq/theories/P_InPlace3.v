(** dis_sim_local with its aliases, and intrinsic_dimension *)
From Coq Require Import String.
From Coq Require Import ZArith List Arith Lia Bool.
From Verif Require Import Py Num Arr Sort S_Neighbors M_IO M_Hubness M_GK M_SNN M_KNN M_LS M_MPEmpiric
  M_Approx M_MPDist M_Simhub M_Dist M_Centering M_ID Heap S_Heap P_Heap M_InPlace P_InPlace.
Import ListNotations.
Local Open Scope heap_scope.

Lemma combine_nth_seq {B} (d : B) (l : list B) k :
  combine (seq k (length l)) l = map (fun i => (i, nth (i - k) l d)) (seq k (length l)).
Proof.
  revert k. induction l as [|b l IH]; intros k; simpl; [reflexivity|].
  rewrite Nat.sub_diag. f_equal. rewrite IH. apply map_ext_in. intros i Hi. apply in_seq in Hi.
  replace (i - k) with (S (i - S k)) by lia. reflexivity.
Qed.

Section DSL.
  Context {V : Type} {N : Num V}.
  Variable argpart : list V -> list nat -> list nat.
  Variables (vsum : list V -> V).

  Definition centroids (Y : arr2 V) (n m : nat) (nn : list (list nat)) : arr2 V :=
    for_ n (fun i M => setrow M i 0 m (rows_mean vsum Y (nth i nn []))) (full2 n m n0).

  Lemma run_centroids (h : heap V) l i j D Y n m k :
    nth_error l i = Some D -> nth_error l j = Some Y ->
    match mapM (dsl_nn argpart D k) (seq 0 n) with
    | Ok nn => ip_centroids argpart vsum (length h + i) (length h + j) n m k (h ++ l) =
                 (Ok (length h + length l), h ++ (l ++ [centroids Y n m nn]))
    | Raise e => exists l', ip_centroids argpart vsum (length h + i) (length h + j) n m k (h ++ l) = (Raise e, h ++ l')
    end.
  Proof.
    intros Ei Ej. unfold ip_centroids, p_zeros.
    assert (Li : i < length l) by (apply nth_error_Some; rewrite Ei; discriminate).
    assert (Lj : j < length l) by (apply nth_error_Some; rewrite Ej; discriminate).
    set (body := fun t => D <- p_get (length h + i);
      knn_idx <- p_lift (dsl_nn argpart D k t);
      Yv <- p_get (length h + j);
      p_upd (length h + length l) (fun M => setrow M t 0 m (rows_mean vsum Yv knn_idx))).
    assert (U : forall M f, upd_nth (l ++ [M]) (length l) f = l ++ [f M]).
    { intros M f. clear. induction l as [|A l IH]; simpl; [reflexivity|]. rewrite IH. reflexivity. }
    assert (G : forall ts M,
      match mapM (dsl_nn argpart D k) ts with
      | Ok nn => p_for ts body (h ++ (l ++ [M])) =
          (Ok tt, h ++ (l ++ [fold_left (fun M tn => setrow M (fst tn) 0 m (rows_mean vsum Y (snd tn))) (combine ts nn) M]))
      | Raise e => exists M', p_for ts body (h ++ (l ++ [M])) = (Raise e, h ++ (l ++ [M']))
      end).
    { induction ts as [|t ts IH]; intros M; simpl; [reflexivity|].
      assert (B : body t (h ++ (l ++ [M])) = match dsl_nn argpart D k t with
         | Ok nn => (Ok tt, h ++ (l ++ [setrow M t 0 m (rows_mean vsum Y nn)]))
         | Raise e => (Raise e, h ++ (l ++ [M])) end).
      { unfold body. erewrite run_ok by (apply run_local; rewrite nth_error_app1 by exact Li; exact Ei).
        destruct (dsl_nn argpart D k t) as [nn|e]; [|reflexivity].
        erewrite run_ok by reflexivity.
        erewrite run_ok by (apply run_local; rewrite nth_error_app1 by exact Lj; exact Ej).
        rewrite run_upd, U. reflexivity. }
      destruct (dsl_nn argpart D k t) as [nn|e]; simpl.
      - specialize (IH (setrow M t 0 m (rows_mean vsum Y nn))).
        destruct (mapM (dsl_nn argpart D k) ts) as [nns|e]; simpl.
        + erewrite run_ok by exact B. exact IH.
        + destruct IH as (M' & IH). exists M'. erewrite run_ok by exact B. exact IH.
      - exists M. erewrite run_raise by exact B. reflexivity. }
    specialize (G (seq 0 n) (full2 n m n0)).
    destruct (mapM (dsl_nn argpart D k) (seq 0 n)) as [nn|e] eqn:Em.
    - erewrite run_ok by apply run_new. erewrite run_ok by exact G.
      unfold p_ret. unfold centroids, for_.
      assert (Ln : length nn = n) by (rewrite (mapM_length _ _ _ Em), seq_length; reflexivity).
      rewrite <- Ln at 1. rewrite (combine_nth_seq []), Ln.
      assert (F : forall ts M, fold_left (fun M tn => setrow M (fst tn) 0 m (rows_mean vsum Y (snd tn)))
                 (map (fun i => (i, nth (i - 0) nn [])) ts) M =
               fold_left (fun M i => setrow M i 0 m (rows_mean vsum Y (nth i nn []))) ts M).
      { induction ts as [|t ts IH]; intros M; simpl; [reflexivity|]. rewrite IH, Nat.sub_0_r. reflexivity. }
      rewrite F. reflexivity.
    - destruct G as (M' & G). exists (l ++ [M']).
      erewrite run_ok by apply run_new. erewrite run_raise by exact G. reflexivity.
  Qed.

  Lemma run_sq_sum (h : heap V) l i j X C : nth_error l i = Some X -> nth_error l j = Some C ->
    ip_sq_sum vsum (length h + i) (length h + j) (h ++ l) =
      (Ok (fun r => vsum (rowl (map2d (fun v => nmul v v) (zip2 nsub X C)) r)),
       h ++ upd_nth l i (fun A => map2d (fun v => nmul v v) (zip2 nsub A C))).
  Proof.
    intros Ei Ej. unfold ip_sq_sum.
    erewrite run_ok by (apply run_local; exact Ej).
    erewrite run_ok by apply run_upd. erewrite run_ok by apply run_upd. rewrite upd_comp.
    erewrite run_ok by (apply run_local; apply (upd_same _ _ _ _ Ei)). reflexivity.
  Qed.

  Lemma euclid_shape X Y D : euclidean_distances_sq vsum X Y = Ok D -> nrow D = nrow X /\ ncol D = nrow Y.
  Proof.
    unfold euclidean_distances_sq. destruct (check_array X) as [[]|e]; [|discriminate].
    destruct (check_array Y) as [[]|e]; [|discriminate]. simpl.
    destruct (negb (ncol X =? ncol Y)); simpl; [discriminate|]. intros E. injection E as <-. auto.
  Qed.

  Lemma ip_dsl_pure h x X (y : option ref) (Y : option (arr2 V)) k n_jobs :
    nth_error h x = Some X ->
    match y, Y with None, None => True | Some y, Some Y => nth_error h y = Some Y | _, _ => False end ->
    (n_jobs <= 1)%Z ->
    exists r, dis_sim_local vsum argpart X k n_jobs Y r /\ pure_call (ip_dsl argpart vsum x y k) h r.
  Proof.
    intros Ex Ey Nj. unfold ip_dsl. destruct y as [y|], Y as [Y|]; try contradiction.
    - (* two sets *)
      assert (NE : (length h + 1 =? length h + 0) = false) by (apply Nat.eqb_neq; lia).
      destruct (ncol X =? ncol Y) eqn:Hm.
      2:{ exists (Raise ValueError). split; [apply dsl_dim, Nat.eqb_neq, Hm|].
          apply good_pure. h_copy. h_copy. h_get. h_get. rewrite Hm.
          eexists. split; reflexivity. }
      apply Nat.eqb_eq in Hm.
      destruct (euclidean_distances_sq vsum Y Y) as [Dt|e] eqn:ET.
      2:{ exists (Raise e). split; [apply dsl_bad; [exact Hm | cbn beta iota zeta; rewrite ET; reflexivity]|].
          apply good_pure. h_copy. h_copy. h_get. h_get. rewrite Hm, Nat.eqb_refl.
          erewrite run_ok by reflexivity. rewrite ET. eexists. split; reflexivity. }
      destruct (euclidean_distances_sq vsum X Y) as [Dx|e] eqn:EX.
      2:{ exists (Raise e). split; [apply dsl_bad; [exact Hm | cbn beta iota zeta; rewrite ET; exact EX]|].
          apply good_pure. h_copy. h_copy. h_get. h_get. rewrite Hm, Nat.eqb_refl.
          erewrite run_ok by reflexivity. rewrite ET. erewrite run_ok by reflexivity. h_new.
          rewrite NE, EX. eexists. split; reflexivity. }
      destruct (euclid_shape _ _ _ ET) as [Tn Tc]. destruct (euclid_shape _ _ _ EX) as [Xn Xc].
      pose (cx := bind (mapM (dsl_nn argpart Dx k) (seq 0 (nrow X)))
                   (fun nn => Ok (at2 (centroids Y (nrow X) (ncol X) nn)))).
      pose (cy := bind (mapM (dsl_nn argpart Dt k) (seq 0 (nrow Y)))
                   (fun nn => Ok (at2 (centroids Y (nrow Y) (ncol Y) nn)))).
      eexists. split.
      { apply dsl_two with (D_train := Dt) (D_test := Dx) (cx := cx) (cy := cy); [exact Hm | exact ET | exact EX | |].
        - unfold cx. rewrite <- Xn. destruct (mapM _ (seq 0 (nrow Dx))) as [nn|e] eqn:Em; simpl.
          + rewrite Hm. apply dc_serial; assumption.
          + apply dc_fail, Em.
        - unfold cy. rewrite <- Tn. destruct (mapM _ (seq 0 (nrow Dt))) as [nn|e] eqn:Em; simpl.
          + apply dc_serial; assumption.
          + apply dc_fail, Em. }
      apply good_pure. h_copy. h_copy. h_get. h_get. rewrite Hm, Nat.eqb_refl.
      erewrite run_ok by reflexivity. rewrite ET. erewrite run_ok by reflexivity. h_new.
      rewrite NE, EX. erewrite (run_ok (p_bind _ _)) by (erewrite run_ok by reflexivity; apply run_new). h_simpl.
      pose proof (run_centroids h [X; Y; Dt; Dx] 3 1 Dx Y (nrow X) (ncol Y) k eq_refl eq_refl) as RX.
      unfold cx. destruct (mapM (dsl_nn argpart Dx k) (seq 0 (nrow X))) as [nx|e] eqn:EmX.
      2:{ destruct RX as (l' & RX). erewrite run_raise by exact RX. exists l'. split; reflexivity. }
      erewrite run_ok by exact RX. h_simpl.
      erewrite run_ok by (apply (run_sq_sum h _ 0 4); reflexivity). h_simpl.
      match goal with |- good _ _ (p_bind _ _ (h ++ ?l)) _ =>
        pose proof (run_centroids h l 2 1 Dt Y (nrow Y) (ncol Y) k eq_refl eq_refl) as RY end.
      unfold cy. destruct (mapM (dsl_nn argpart Dt k) (seq 0 (nrow Y))) as [ny|e] eqn:EmY.
      2:{ destruct RY as (l' & RY). erewrite run_raise; [|erewrite run_raise by exact RY; reflexivity].
          exists l'. split; reflexivity. }
      erewrite (run_ok (p_bind _ _)) by (erewrite run_ok by exact RY; h_simpl;
        apply (run_sq_sum h _ 1 5); reflexivity). h_simpl.
      h_upd. h_upd. erewrite run_ok by reflexivity. cbn [bind].
      eapply good_ret_eq; [reflexivity|]. repeat split. intros i j _ _. cbn [at2]. unfold dsl_sq, rowl.
      cbn [ncol map2d zip2]. rewrite Hm. reflexivity.
    - (* one set *)
      assert (EQ : (length h + 0 =? length h + 0) = true) by apply Nat.eqb_refl.
      destruct (euclidean_distances_sq vsum X X) as [D0|e] eqn:ET.
      2:{ exists (Raise e). split; [apply dsl_bad; [exact I | cbn beta iota zeta; rewrite ET; reflexivity]|].
          apply good_pure. h_copy. erewrite run_ok by reflexivity. h_get. h_get. rewrite Nat.eqb_refl.
          erewrite run_ok by reflexivity. rewrite ET. eexists. split; reflexivity. }
      destruct (euclid_shape _ _ _ ET) as [Tn Tc].
      pose (c := bind (mapM (dsl_nn argpart (fill_diagonal D0 ninf) k) (seq 0 (nrow X)))
                   (fun nn => Ok (at2 (centroids X (nrow X) (ncol X) nn)))).
      eexists. split.
      { apply dsl_self with (D0 := D0) (c := c); [exact ET|].
        unfold c. rewrite <- Tn. change (nrow D0) with (nrow (fill_diagonal D0 (ninf (V:=V)))).
        destruct (mapM _ (seq 0 (nrow (fill_diagonal D0 ninf)))) as [nn|e] eqn:Em; cbn [bind].
        + apply dc_serial; assumption.
        + apply dc_fail, Em. }
      apply good_pure. h_copy. erewrite run_ok by reflexivity. h_get. h_get. rewrite Nat.eqb_refl.
      erewrite run_ok by reflexivity. rewrite ET. erewrite run_ok by reflexivity. h_new.
      rewrite EQ. erewrite (run_ok (p_bind _ _)) by (unfold p_fill; erewrite run_ok by apply run_upd; reflexivity). h_simpl.
      pose proof (run_centroids h [X; fill_diagonal D0 ninf] 1 0 _ X (nrow X) (ncol X) k eq_refl eq_refl) as RX.
      unfold c. destruct (mapM (dsl_nn argpart (fill_diagonal D0 ninf) k) (seq 0 (nrow X))) as [nx|e] eqn:EmX.
      2:{ destruct RX as (l' & RX). erewrite run_raise by exact RX. exists l'. split; reflexivity. }
      erewrite run_ok by exact RX. h_simpl.
      erewrite run_ok by (apply (run_sq_sum h _ 0 2); reflexivity). h_simpl.
      erewrite run_ok by reflexivity.
      h_upd. h_upd. unfold p_fill. h_upd. cbn [bind].
      eapply good_ret_eq; [reflexivity|]. repeat split.
  Qed.

  Variables (vln : V -> V) (sort : list V -> list V).

  Lemma ip_id_pure h a X order k1 k2 estimator metric trafo mem : nth_error h a = Some X ->
    pure_value (ip_id vln vsum sort a order k1 k2 estimator metric trafo mem) h
               (intrinsic_dimension vsum vln sort order X k1 k2 estimator metric trafo mem).
  Proof.
    intros E. apply good_value. unfold ip_id, intrinsic_dimension.
    eapply good_get_caller; [exact E|]. cbv zeta. h_lift. h_lift. h_copy.
    destruct (String.eqb metric "vector").
    - h_get. h_new. unfold id_trafo. destruct trafo as [t|].
      + destruct (String.eqb t "var"); [|destruct (String.eqb t "std")].
        * erewrite (run_ok (p_bind _ _)) by (erewrite run_ok by apply run_upd; apply run_upd). h_simpl.
          h_get. eexists. split; reflexivity.
        * erewrite (run_ok (p_bind _ _)) by (erewrite run_ok by apply run_upd; apply run_upd). h_simpl.
          h_get. eexists. split; reflexivity.
        * eexists. split; reflexivity.
      + erewrite run_ok by reflexivity. h_get. eexists. split; reflexivity.
    - destruct (String.eqb metric "distance" || String.eqb metric "similarity"); eexists; split; reflexivity.
  Qed.
End DSL.
