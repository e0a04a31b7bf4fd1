(** Lemmas about hubness_analysis.py. *)
From Coq Require Import String.
From Coq Require Import ZArith List Arith Lia Bool Permutation.
From Verif Require Import Py Num Arr Sort Conc S_Neighbors M_IO M_Hubness M_SNN M_MPEmpiric M_LS M_Dist M_Centering M_GK M_KNN M_Analysis P_HubnessMain.
Import ListNotations.
Local Open Scope nat_scope.

  Lemma exp_checks_ok {V} (a : analysis (V:=V)) name : exp_checks a name = Ok tt <->
    nrow (a_D a) = ncol (a_D a) /\ valid_metric (a_metric a) = true /\ known name = true /\
    (forall y, a_classes a = Some y -> length y = nrow (a_D a)) /\
    (forall X, a_vectors a = Some X -> nrow X = nrow (a_D a)).
  Proof.
    assert (G : forall b e (r : result unit), (guard b e ;; r)%py = Ok tt <-> b = false /\ r = Ok tt).
    { intros [|] e r; cbn; intuition discriminate. }
    assert (G1 : forall b e, guard b e = Ok tt <-> b = false).
    { intros [|] e; cbn; intuition discriminate. }
    unfold exp_checks, check_distance_matrix_shape, check_valid_metric_parameter, valid_metric,
      check_distance_matrix_shape_fits_labels, check_distance_matrix_shape_fits_vectors.
    cbn [check_is_nD_array shape_of length Nat.eqb negb guard bind dim0 dim1 nth size_of fold_right].
    unfold is_dist, is_sim. generalize (known name); intros kn.
    destruct (Nat.eqb_spec (nrow (a_D a)) (ncol (a_D a))) as [E|E]; cbn.
    2:{ split; [discriminate|]. intros (? & _). contradiction. }
    assert (EM : (negb (String.eqb (a_metric a) "distance") && negb (String.eqb (a_metric a) "similarity"))%bool
                 = negb (String.eqb (a_metric a) "distance" || String.eqb (a_metric a) "similarity")%bool)
      by now rewrite negb_orb.
    rewrite EM. clear EM.
    destruct (String.eqb (a_metric a) "distance" || String.eqb (a_metric a) "similarity")%bool; cbn;
      [|split; [discriminate|intros (_ & ? & _); discriminate]].
    (destruct kn; cbn; [|split; [discriminate|intros (_ & _ & ? & _); discriminate]]);
    (destruct (a_classes a) as [y|]; cbn;
      [rewrite ?Nat.mul_1_r; destruct (Nat.eqb_spec (length y) (nrow (a_D a))) as [Ey|Ey]; cbn;
        [|split; [discriminate|intros (_ & _ & _ & Hy & _); exfalso; now apply Ey, Hy]]|]);
    (destruct (a_vectors a) as [X|]; cbn;
      [destruct (Nat.eqb_spec (nrow (a_D a)) (nrow X)) as [EX|EX]; cbn;
        [|split; [discriminate|intros (_ & _ & _ & _ & HX); exfalso; apply EX; symmetry; now apply HX]]|]);
    (split; [intros _; repeat split; auto; intros; congruence|reflexivity]).
  Qed.

Section PA.
  Context {V : Type} {N : Num V}.
  Variables (vexp vln : V -> V) (vsum : list V -> V) (vpow : V -> V -> V).
  Variable argpart : list V -> list nat -> list nat.
  Variable part : list V -> list nat -> list V.
  Variables (argsort stable : list V -> list nat) (sort : list V -> list V).
  Variable cpu : nat.
  Variables (gaussi gammai : arr2 V -> string -> result (arr2 V)) (idim : arr2 V -> result V).
  Let sec_distance := sec_distance vexp vln vsum vpow argpart part cpu gaussi gammai.
  Let exp_run := exp_run vexp vln vsum vpow argpart part argsort stable sort cpu gaussi gammai.
  Let exps_run := exps_run vexp vln vsum vpow argpart part argsort stable sort cpu gaussi gammai.
  Let analyze := analyze vexp vln vsum vpow argpart part argsort stable sort cpu gaussi gammai idim.
  Let history := history vexp vln vsum vpow argpart part argsort stable sort cpu gaussi gammai idim.
  Implicit Types a : analysis (V:=V).

  Lemma exp_run_type a name hks kks x : exp_run a name hks kks (Ok x) -> e_type x = name.
  Proof. intros H. inversion H; reflexivity. Qed.

  Lemma exps_run_types a hks kks names xs o : exps_run a hks kks names xs o ->
    map e_type xs = firstn (length xs) names /\ length xs <= length names /\
    (o = None <-> length xs = length names).
  Proof.
    intros H; induction H as [|name names e He|name names x xs o Hx _ (IH1 & IH2 & IH3)]; cbn.
    - repeat split; auto.
    - repeat split; auto; try lia; discriminate.
    - rewrite (exp_run_type _ _ _ _ _ Hx). rewrite IH1. repeat split; [lia| |].
      + intros E. apply IH3 in E. lia.
      + intros E. apply IH3. lia.
  Qed.

  Lemma exps_run_each a hks kks names xs o : exps_run a hks kks names xs o ->
    forall x, In x xs -> exp_run a (e_type x) hks kks (Ok x).
  Proof.
    intros H; induction H as [|name names e He|name names x xs o Hx _ IH]; cbn; intros y []; auto.
    subst y. now rewrite (exp_run_type _ _ _ _ _ Hx).
  Qed.

  Lemma exps_run_fail a hks kks names xs e : exps_run a hks kks names xs (Some e) ->
    exp_run a (nth (length xs) names ""%string) hks kks (Raise e).
  Proof.
    intros H. remember (Some e) as o eqn:Eo. revert e Eo.
    induction H as [|name names e' He|name names x xs o Hx _ IH]; cbn; intros e Eo.
    - discriminate.
    - injection Eo as ->. exact He.
    - now apply IH.
  Qed.

  Lemma exp_run_unknown a name hks kks r : nrow (a_D a) = ncol (a_D a) -> known name = false ->
    exp_run a name hks kks r -> r = Raise ValueError.
  Proof.
    intros Hsq Hk H.
    assert (C : exp_checks a name = Raise ValueError).
    { unfold exp_checks, check_distance_matrix_shape, check_valid_metric_parameter. rewrite Hk. cbn.
      rewrite Hsq, Nat.eqb_refl. cbn. unfold guard. now destruct (negb (is_dist (a_metric a)) && negb (is_sim (a_metric a))). }
    inversion H; try congruence.
  Qed.

  (** the data an analysis is made of *)
  Definition same_data a b : Prop :=
    a_D a = a_D b /\ a_classes a = a_classes b /\ a_vectors a = a_vectors b /\ a_metric a = a_metric b.

  Lemma sec_distance_data a b name r : same_data a b -> sec_distance a name r -> sec_distance b name r.
  Proof.
    intros (E1 & E2 & E3 & E4) H. destruct H.
    - rewrite E1, E4 in *. now apply sd_matrix.
    - rewrite E3 in *. now apply sd_vector with X.
    - rewrite E3 in *. now apply sd_none_attr.
    - rewrite E3 in *. now apply sd_none_type.
  Qed.

  Lemma exp_run_data a b name hks kks r : same_data a b ->
    exp_run a name hks kks r -> exp_run b name hks kks r.
  Proof.
    intros S H. pose proof S as (E1 & E2 & E3 & E4).
    assert (EC : exp_checks a name = exp_checks b name) by (unfold exp_checks; now rewrite E1, E2, E3, E4).
    destruct H; repeat match goal with H : M_Analysis.sec_distance _ _ _ _ _ _ _ _ _ _ _ _ |- _ =>
      apply (sec_distance_data a b _ _ S) in H end;
      rewrite ?EC, ?E1, ?E2, ?E4 in *.
    - now apply er_checks.
    - now apply er_sec.
    - now apply er_hub with S0.
    - now apply er_plain.
    - now apply er_knn with S0 h y.
    - now apply er_gk with S0 h y acc.
    - now apply er_full with y.
  Qed.

  Lemma exps_run_data a b hks kks names xs o : same_data a b ->
    exps_run a hks kks names xs o -> exps_run b hks kks names xs o.
  Proof.
    intros S H; induction H.
    - apply xr_nil.
    - apply xr_raise. now apply (exp_run_data a b).
    - apply xr_step; [now apply (exp_run_data a b)|assumption].
  Qed.

  (** one call *)
  Lemma analyze_inv a exps hks kks a' o : analyze a exps hks kks a' o ->
    same_data a' a /\ exists xs, a_exps a' = a_exps a ++ xs /\
      ((xs = [] /\ exists X e, a_vectors a = Some X /\ idim X = Raise e /\ o = Some e) \/
       ((forall X, a_vectors a = Some X -> exists v, idim X = Ok v) /\
        exps_run a hks kks (split_comma exps) xs o)).
  Proof.
    intros H; destruct H as [X e HX He|xs o Hi Hr].
    - split; [repeat split|]. exists []. rewrite app_nil_r. split; [reflexivity|].
      left. split; [reflexivity|]. now exists X, e.
    - split; [repeat split|]. exists xs. split; [reflexivity|]. right. split; [|exact Hr].
      intros X HX. now rewrite HX in Hi.
  Qed.

  Lemma same_data_trans a b c : same_data a b -> same_data b c -> same_data a c.
  Proof. unfold same_data. intuition congruence. Qed.
  Lemma same_data_sym a b : same_data a b -> same_data b a.
  Proof. unfold same_data. intuition congruence. Qed.

  (** hubness dictionary *)
  Lemma dget_dset {A} (k k' : Z) (v : A) d :
    dget k (dset k' v d) = if Z.eqb k k' then Some v else dget k d.
  Proof.
    induction d as [|(k0, v0) d IH]; cbn.
    - reflexivity.
    - destruct (Z.eqb_spec k' k0) as [->|H1]; cbn; destruct (Z.eqb_spec k k0) as [->|H2]; auto.
      + destruct (Z.eqb_spec k0 k') as [->|]; auto. congruence.
  Qed.

  Lemma hub_loop_ok n (Q : arr2 V) metric ks d d' : hub_loop argpart n Q metric ks d (Ok d') ->
    forall k, (In k ks -> exists h rps, dget k d' = Some h /\
                 (forall i, Permutation (rps i) (seq 0 (ncol Q))) /\
                 calc_hubness argpart n Q metric k rps = Ok h) /\
              (~ In k ks -> dget k d' = dget k d).
  Proof.
    intros H. remember (Ok d') as r eqn:Er. revert d' Er.
    induction H as [d|k0 ks d rps e Hp Hc|k0 ks d rps h r Hp Hc Hl IH]; intros d' Er k.
    - injection Er as ->. split; [intros []|reflexivity].
    - discriminate.
    - destruct (IH d' Er k) as (I1 & I2). rewrite dget_dset in I2. split.
      + intros Hin. destruct (in_dec Z.eq_dec k ks) as [Hk|Hk]; [now apply I1|].
        destruct Hin as [->|Hin]; [|contradiction]. rewrite Z.eqb_refl in I2.
        exists h, rps. auto.
      + intros Hn. cbn in Hn. rewrite I2 by tauto. destruct (Z.eqb_spec k k0); [subst; exfalso; tauto|reflexivity].
  Qed.

  Lemma exp_run_parts a name hks kks x : exp_run a name hks kks (Ok x) ->
    exp_checks a name = Ok tt /\ sec_distance a name (Ok (e_sec x)) /\
    hub_loop argpart (nrow (a_D a)) (e_sec x) (a_metric a) hks [] (Ok (e_hub x)) /\
    match a_classes a with
    | None => e_knn x = [] /\ e_gk x = None
    | Some y => knn_loop argsort (e_sec x) (a_metric a) y kks [] (Ok (e_knn x)) /\
        exists g, goodman_kruskal_index stable sort (e_sec x) y (a_metric a) = Ok g /\ e_gk x = Some g
    end.
  Proof.
    intros H; inversion H; subst; cbn;
      match goal with H : a_classes a = _ |- _ => rewrite H end; eauto 8.
  Qed.


  (** results of the vector based methods are n x n *)
  Lemma vector_method_shape X name (Q : arr2 V) :
    vector_method vsum vpow argpart cpu X name (Ok Q) -> nrow Q = nrow X /\ ncol Q = nrow X.
  Proof.
    intros H. remember (Ok Q) as r0 eqn:E2. revert Q E2.
    assert (Ex : forall a b : arr2 V, Ok a = Ok b -> a = b) by (intros ? ? [=]; assumption).
    destruct H as [| |r Hr| |r Hr]; intros Q E2.
    - apply Ex in E2. subst Q. now split.
    - apply Ex in E2. subst Q. now split.
    - destruct r as [P|]; [|discriminate]. apply Ex in E2. subst Q. cbn.
      assert (M : forall sim, matmul vsum (unit_rows vsum X) (transpose (unit_rows vsum X)) = Ok sim ->
                  nrow sim = nrow X /\ ncol sim = nrow X).
      { intros sim Es. unfold matmul in Es. cbn in Es. rewrite Nat.eqb_refl in Es.
        apply Ex in Es. subst sim. now split. }
      remember (Ok P) as r1 eqn:E3. remember None as oy eqn:EY.
      destruct Hr; subst; try discriminate E3; apply Ex in E3; subst P; cbn in *; now apply M.
    - unfold dis_sim_global in E2. rewrite Nat.eqb_refl in E2. cbn [negb guard bind] in E2.
      unfold euclidean_distances_sq in E2.
      destruct (check_array X) as [[]|]; [|discriminate]. cbn [bind] in E2.
      destruct (check_array _) as [[]|]; [|discriminate]. cbn in E2. rewrite Nat.eqb_refl in E2. cbn in E2.
      apply Ex in E2. subst Q. now split.
    - remember None as oy eqn:EY. destruct Hr as [| |D0 c HD Hc|]; try discriminate EY; try discriminate E2.
      destruct c as [c|]; [|discriminate]. apply Ex in E2. subst Q. cbn.
      unfold euclidean_distances_sq in HD.
      destruct (check_array X) as [[]|]; [|discriminate]. cbn in HD. rewrite Nat.eqb_refl in HD. cbn in HD.
      apply Ex in HD. subst D0. now split.
  Qed.

  Lemma for_setrow_shape n m k (lo hi : nat -> nat) (f : nat -> nat -> V) :
    nrow (for_ k (fun i M => setrow M i (lo i) (hi i) (f i)) (full2 n m n0)) = n /\
    ncol (for_ k (fun i M => setrow M i (lo i) (hi i) (f i)) (full2 n m n0)) = m.
  Proof. apply (for_ind (fun _ M => nrow M = n /\ ncol M = m)); [now split|]. intros i M _ H. exact H. Qed.

  Lemma matrix_method_shape (D : arr2 V) metric name (Q : arr2 V) :
    (forall D m Q, gaussi D m = Ok Q -> nrow Q = nrow D /\ ncol Q = ncol D) ->
    (forall D m Q, gammai D m = Ok Q -> nrow Q = nrow D /\ ncol Q = ncol D) ->
    nrow D = ncol D ->
    matrix_method vexp vln vsum argpart part cpu gaussi gammai D metric name (Ok Q) ->
    nrow Q = nrow D /\ ncol Q = nrow D.
  Proof.
    intros Hg1 Hg2 Hsq H. remember (Ok Q) as r0 eqn:E2. revert Q E2.
    assert (Ex : forall a b : arr2 V, Ok a = Ok b -> a = b) by (intros ? ? [=]; assumption).
    destruct H as [| | |r Hr|r Hr| |]; intros Q E2.
    - unfold mp_empiric_full in E2.
      destruct (check_distance_matrix_shape _) as [[]|]; [|discriminate]. cbn [bind] in E2.
      destruct (check_valid_metric_parameter _) as [[]|]; [|discriminate]. cbn [bind] in E2.
      apply Ex in E2. subst Q. unfold mp_full_core. cbn. apply for_setrow_shape.
    - apply Hg1 in E2. now rewrite Hsq in *.
    - apply Hg2 in E2. now rewrite Hsq in *.
    - destruct Hr; try discriminate E2.
      + unfold local_scaling_serial in E2. destruct (ls_radii _ _ _ _ _) as [rs|]; [|discriminate].
        apply Ex in E2. subst Q. cbn. apply for_setrow_shape.
      + destruct (ls_radii _ _ _ _ _); discriminate.
      + apply Ex in E2. subst Q. now split.
    - destruct Hr; try discriminate E2.
      + unfold nicdm_serial in E2. destruct (nicdm_radii _ _ _ _ _ _) as [rs|]; [|discriminate].
        apply Ex in E2. subst Q. cbn. apply for_setrow_shape.
      + apply Ex in E2. subst Q. now split.
    - unfold snn_serial in E2.
      destruct (check_distance_matrix_shape _) as [[]|]; [|discriminate]. cbn [bind] in E2.
      destruct (check_valid_metric_parameter _) as [[]|]; [|discriminate]. cbn [bind] in E2.
      destruct (mapM _ _) as [hs|]; [|discriminate]. cbn [bind] in E2.
      apply Ex in E2. subst Q. cbn. apply for_setrow_shape.
    - apply Ex in E2. subst Q. now split.
  Qed.

  Lemma calc_hubness_inv n (Q : arr2 V) metric k rps h : calc_hubness argpart n Q metric k rps = Ok h ->
    hubness_serial argpart false Q k metric true rps = Ok (h_out h) /\ 0 < length (out_Nk (h_out h)) /\ h_anti h = ndiv (nofnat (100 * count_if (fun j => nth j (out_Nk (h_out h)) 0 =? 0)
                                            (length (out_Nk (h_out h))))) (nofnat n) /\ h_max h = ndiv (nofnat (100 * max_list (out_Nk (h_out h)))) (nofnat n).
  Proof.
    unfold calc_hubness. destruct (hubness_serial argpart false Q k metric true rps) as [o|]; [|discriminate].
    cbn [bind]. destruct (Nat.eqb_spec (length (out_Nk o)) 0) as [E|E]; [discriminate|]. cbn [guard bind].
    intros H. assert (Ex : forall a b : hubres (V:=V), Ok a = Ok b -> a = b) by (intros ? ? [=]; assumption).
    apply Ex in H. subst h. cbn. repeat split; auto; lia.
  Qed.
End PA.
