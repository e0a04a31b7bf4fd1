(** C155: which data the approximate estimator works with after the caller has
    written to the arrays passed to fit (approximate.py:1409-1414, 1460), with
    fixed vantage points. *)
From Coq Require Import String.
From Coq Require Import Reals ZArith List Arith Lia Lra Bool.
From Verif Require Import Py Num NumT Arr Sort Conc M_LS M_Dist M_HubnessClass M_Approx M_ApproxPredict M_Lifecycle S_Lifecycle M_Shared S_Shared.
From Verif Require Import P_Approx P_ApproxFixed P_ApproxPredict P_Lifecycle P_Shared Properties_Approx Properties_Lifecycle.
Import ListNotations.
Local Open Scope nat_scope.
Local Open Scope py_scope.

Section Statements.
  Context {V : Type} {N : Num V}.
  Variable vsum : list V -> V.
  Variable sdist : string -> nat -> (nat -> V) -> (nat -> V) -> V.
  Variables (vexp : V -> V) (vsf : V -> V -> V -> V).
  Variable vstore : f64 -> V.
  Variable part : list V -> list nat -> list V.
  Variable argpart : list V -> list nat -> list nat.
  Variable P : par.
  Notation since_fit := (since_fit vsum sdist vexp vsf vstore part argpart P).
  Notation transforms := (transforms vsum sdist vexp vsf vstore part argpart P).
  Notation predicts := (predicts vsum sdist vexp vsf vstore part argpart P).
  Notation one_shot := (one_shot vsum sdist vexp vsf vstore part argpart P).

  Lemma sound_own m0 m x y f o : o_fit o = Some (stored_fit P m0 x y f) -> shares_data P m0 x = false -> sound m o = Ok tt.
  Proof.
    intros Ef Sh. unfold sound. rewrite Ef. unfold stored_fit, shares_data in *. cbn.
    destruct (p_kind P); [rewrite Sh|..]; reflexivity.
  Qed.
  Lemma sound_shared m0 m x y ns ind f o : same_shapes m0 m ->
    core_fit vsum sdist part argpart P ns ind (arr m0 x) (option_map (lab m0) y) = Ok f ->
    o_fit o = Some (stored_fit P m0 x y f) -> shares_data P m0 x = true -> sound m o = check_array (arr m x).
  Proof.
    intros SH CF Ef Sh. destruct (deref_stored _ _ _ _ P m0 m _ _ _ _ _ SH CF) as (DX & _). cbv zeta in DX.
    unfold sound. rewrite Ef, DX. unfold data_seen. rewrite Sh. unfold stored_fit, shares_data in *. cbn [t_X].
    destruct (p_kind P) eqn:K; try discriminate Sh. rewrite Sh. unfold the_sample. rewrite K. cbn [vantage].
    destruct SH as (SH & _). destruct (SH x) as (<- & _). apply check_rows.
  Qed.
  Lemma not_unfitted m0 ns ind x y m o q : since_fit m0 ns ind x y m o -> ~ transforms m o q NotFitted.
  Proof.
    intros L. destruct (since_fit_state _ _ _ _ _ _ _ _ _ _ _ _ _ _ _ L) as (_ & _ & f & _ & _ & _ & Ef).
    intros (st & H). inversion H as [|m1 o1 q1 s' r' SD DT| | | | |]; subst.
    eapply transform_fitted; [|exact DT]. unfold view. cbn. rewrite Ef. reflexivity.
  Qed.

  (** C155: with a sample, or data that are not float32, transform works with the
      data as they were when fit was called *)
  Theorem C155_copied :
    forall m0 ns ind x y m o, since_fit m0 ns ind x y m o -> good_sample ind (arr m0 x) ->
      p_kind P <> KNone \/ arr32 m0 x = false ->
    forall q,
      (forall r, transforms m o q (of_result r) <-> one_shot ns ind (arr m0 x) (arr m q) r) /\
      ~ transforms m o q NotFitted.
  Proof.
    intros m0 ns ind x y m o L G W q. split; [|eapply not_unfitted; exact L]. intros r.
    destruct (since_fit_state _ _ _ _ _ _ _ _ _ _ _ _ _ _ _ L) as (FC & SH & f & CF & En & Eo & Ef).
    assert (Sh : shares_data P m0 x = false).
    { unfold shares_data. destruct (p_kind P), W; congruence. }
    rewrite (transforms_core _ _ _ _ _ _ _ P _ _ _ _ y m o f q r SH G CF Eo Ef).
    rewrite (sound_own _ m _ _ _ _ Ef Sh).
    destruct (deref_stored _ _ _ _ P m0 m _ _ _ _ _ SH CF) as (DX & _ & DE & _). cbv zeta in *.
    unfold data_seen in DX. rewrite Sh in DX.
    destruct (core_fit_ok _ _ _ _ _ _ _ _ _ _ CF) as (EX & _).
    rewrite <- (core_one_shot vsum sdist vexp vsf vstore part argpart P ns ind (arr m0 x) _ f (arr m q) r FC CF). rewrite En.
    split.
    - intros [(_ & H)|(e & H & _)]; [|discriminate]. eapply core_ext; [| |exact H]; congruence.
    - intros H. left. split; [reflexivity|]. eapply core_ext; [| |exact H]; congruence.
  Qed.

  (** C155: without sampling, float32 data are shared: with no hubness reduction, and
      with empiric mutual proximity, transform answers as if the object had been
      fitted to what the array contains now *)
  Theorem C155_shared :
    forall m0 ns ind x y m o, since_fit m0 ns ind x y m o ->
      p_kind P = KNone -> arr32 m0 x = true ->
      p_hr P = None \/ (exists h, p_hr P = Some h /\ upper h = "MP"%string) ->
    forall q r, transforms m o q (of_result r) <-> one_shot ns ind (arr m x) (arr m q) r.
  Proof.
    intros m0 ns ind x y m o L K A32 HR q r.
    destruct (since_fit_state _ _ _ _ _ _ _ _ _ _ _ _ _ _ _ L) as (FC & SH & f & CF & En & Eo & Ef).
    assert (Sh : shares_data P m0 x = true) by (unfold shares_data; now rewrite K).
    assert (OS : forall j, In j [] -> j < nrow (arr m0 x)) by (intros j []).
    assert (CFn : core_fit vsum sdist part argpart P ns [] (arr m0 x) (option_map (lab m0) y) = Ok f).
    { rewrite <- CF. unfold core_fit, the_sample. rewrite K. reflexivity. }
    rewrite (transforms_core _ _ _ _ _ _ _ P _ _ _ _ y m o f q r SH OS CFn Eo Ef).
    rewrite (sound_shared _ _ _ _ _ _ _ _ SH CFn Ef Sh).
    destruct (deref_stored _ _ _ _ P m0 m _ _ _ _ _ SH CFn) as (DX & _ & DE & _). cbv zeta in *.
    unfold data_seen in DX. rewrite Sh in DX. destruct SH as (SH & _). destruct (SH x) as (Er & Ec).
    rewrite <- Er in *. unfold the_sample in DX. rewrite K in DX. cbn [vantage] in DX.
    assert (EXT : f_extra f = ENone).
    { revert CF. unfold core_fit, the_sample. rewrite K. cbn [sampling_check bind]. cbv zeta.
      destruct HR as [Hh|(h & Hh & U)]; unfold hr_is; rewrite Hh; [|rewrite U]; cbn; intros E; injection E as <-; reflexivity. }
    set (g := Fitted (rows_at (arr m x) (seq 0 (nrow (arr m x)))) None (seq 0 (nrow (arr m x))) (@ENone V)).
    assert (CG : core_fit vsum sdist part argpart P ns ind (arr m x) None = Ok g).
    { unfold core_fit, the_sample. rewrite K. cbn [sampling_check bind vantage option_map]. cbv zeta.
      destruct HR as [Hh|(h & Hh & U)]; unfold hr_is; rewrite Hh; [|rewrite U]; reflexivity. }
    destruct (check_array (arr m x)) as [[]|e] eqn:C.
    - rewrite <- (core_one_shot vsum sdist vexp vsf vstore part argpart P ns ind (arr m x) _ g (arr m q) r C CG). rewrite En.
      split.
      + intros [(_ & H)|(e & H & _)]; [|discriminate]. eapply core_ext; [| |exact H]; [rewrite DX; reflexivity|rewrite DE, EXT; reflexivity].
      + intros H. left. split; [reflexivity|]. eapply core_ext; [| |exact H]; [rewrite DX; reflexivity|rewrite DE, EXT; reflexivity].
    - assert (O : one_shot ns ind (arr m x) (arr m q) r <-> r = Raise e).
      { unfold S_Lifecycle.one_shot, the_sample. rewrite K. cbv zeta. unfold fit_check. rewrite C. destruct HR as [-> | (h & -> & ->)]; [reflexivity|].
        split.
        - intros [(_ & H)|[(U & _)|[(U & _)|[(U & _)|(U & _)]]]]; try discriminate U.
          inversion H as [e' E|r' E]; unfold fit_check in E; rewrite C in E; cbn in E; congruence.
        - intros ->. left. split; [reflexivity|]. apply mf_fail. unfold fit_check. rewrite C. reflexivity. }
      rewrite O. split.
      + intros [(H & _)|(e' & H & ->)]; congruence.
      + intros ->. right. eauto.
  Qed.

  (** C155: the other algorithms then mix what they computed in fit with distances to
      what the array contains now *)
  Theorem C155_mixed :
    forall m0 ns ind x y m o, since_fit m0 ns ind x y m o ->
      p_kind P = KNone -> arr32 m0 x = true ->
    forall h, p_hr P = Some h ->
    forall q r,
      (upper h = "LS"%string \/ upper h = "NICDM"%string ->
       transforms m o q (of_result r) <->
       r = (check_array (arr m x) ;;
            ls_mixed vsum sdist vexp part (String.eqb (upper h) "NICDM") (p_metric P) (p_k P)
                     (all_rows (arr m0 x)) (all_rows (arr m x)) (arr m q))) /\
      (upper h = "MPG"%string ->
       transforms m o q (of_result r) <->
       r = (check_array (arr m x) ;; mpg_mixed vsum sdist vsf (p_metric P) (all_rows (arr m0 x)) (all_rows (arr m x)) (arr m q))) /\
      (upper h = "DSL"%string ->
       transforms m o q (of_result r) <->
       r = (check_array (arr m x) ;; dsl_mixed vsum sdist argpart (p_metric P) (p_k P) (all_rows (arr m0 x)) (all_rows (arr m x)) (arr m q))).
  Proof.
    intros m0 ns ind x y m o L K A32 h Ph q r.
    destruct (since_fit_state _ _ _ _ _ _ _ _ _ _ _ _ _ _ _ L) as (FC & SH & f & CF & En & Eo & Ef).
    assert (Sh : shares_data P m0 x = true) by (unfold shares_data; now rewrite K).
    assert (OS : forall j, In j [] -> j < nrow (arr m0 x)) by (intros j []).
    assert (CFn : core_fit vsum sdist part argpart P ns [] (arr m0 x) (option_map (lab m0) y) = Ok f).
    { rewrite <- CF. unfold core_fit, the_sample. rewrite K. reflexivity. }
    rewrite (transforms_core _ _ _ _ _ _ _ P _ _ _ _ y m o f q r SH OS CFn Eo Ef).
    rewrite (sound_shared _ _ _ _ _ _ _ _ SH CFn Ef Sh).
    destruct (deref_stored _ _ _ _ P m0 m _ _ _ _ _ SH CFn) as (DX & _ & DE & _). cbv zeta in *.
    unfold data_seen in DX. rewrite Sh in DX. destruct SH as (SH & _). destruct (SH x) as (Er & Ec).
    unfold the_sample in DX. rewrite K in DX. cbn [vantage] in DX. rewrite <- Er in DX. fold (all_rows (arr m x)) in DX.
    set (g := deref m (stored_fit P m0 x y f)) in *.
    assert (HI : forall a, hr_is P a = String.eqb (upper h) a) by (intros a; unfold hr_is; now rewrite Ph).
    assert (RED : forall B, (forall r', core_transform vsum sdist vexp vsf vstore part argpart P (o_ns o) g (arr m q) r' <-> r' = B) ->
      (check_array (arr m x) = Ok tt /\ core_transform vsum sdist vexp vsf vstore part argpart P (o_ns o) g (arr m q) r \/
       (exists e, check_array (arr m x) = Raise e /\ r = Raise e)) <-> r = (check_array (arr m x) ;; B)).
    { intros B H. rewrite H. destruct (check_array (arr m x)) as [[]|e]; cbn [bind]; split.
      - intros [(_ & H')|(e & H' & _)]; [exact H'|discriminate].
      - intros H'. auto.
      - intros [(H' & _)|(e' & H' & ->)]; congruence.
      - intros H'. right. eauto. }
    unfold core_fit, the_sample in CF. rewrite K, Ph in CF. cbn [sampling_check bind vantage] in CF. cbv zeta in CF.
    fold (all_rows (arr m0 x)) in CF. rewrite !HI in CF.
    split; [|split].
    - intros U. apply RED. intros r'.
      assert (UL : (String.eqb (upper h) "MP" || String.eqb (upper h) "MPG") = false /\ (String.eqb (upper h) "LS" || String.eqb (upper h) "NICDM") = true).
      { destruct U as [-> | ->]; split; reflexivity. }
      destruct UL as (U1 & U2). apply Bool.orb_false_iff in U1 as (U0 & U1). rewrite U0, U1, U2 in CF.
      unfold ls_mixed. destruct (ls_fit sdist part (p_metric P) (p_k P) (all_rows (arr m0 x))) as [rt|] eqn:LF; cbn [bind] in CF; [|discriminate].
      assert (KM : known_metric (p_metric P) = true).
      { unfold ls_fit in LF. destruct (known_metric (p_metric P)); [reflexivity|discriminate LF]. }
      assert (EE : f_extra f = ERadii rt) by (injection CF as <-; reflexivity). rewrite EE in DE. cbn [bind]. split.
      + intros H. destruct H as [Hh|r'' Hh H|mu' sd' Hh H|nic rr Hh H|dc Hh H]; try congruence; rewrite ?HI in Hh; try congruence.
        rewrite DE in H. injection H as <-. rewrite DX, KM. cbn [negb guard bind].
        assert (nic = String.eqb (upper h) "NICDM") as ->; [|reflexivity].
        destruct Hh as [(Hh & ->)|(Hh & ->)]; apply String.eqb_eq in Hh; rewrite Hh; reflexivity.
      + intros ->. assert (Q := ct_ls vsum sdist vexp vsf vstore part argpart P (o_ns o) g (arr m q) (String.eqb (upper h) "NICDM") rt).
        rewrite KM, DX in Q. apply Q; [|exact DE]. rewrite !HI. destruct U as [-> | ->]; auto.
    - intros U. apply RED. intros r'. rewrite U in *. change (String.eqb "MPG" "MP") with false in CF. change (String.eqb "MPG" "MPG") with true in CF. cbv iota in CF.
      destruct (known_metric (p_metric P)) eqn:KM; cbn [negb guard bind] in CF; [|discriminate].
      unfold mpg_mixed.
      destruct (mpg_moments _ _ _ _ _) as (mu, sd). cbn [bind] in CF.
      assert (EE : f_extra f = EMoments mu sd) by (injection CF as <-; reflexivity). rewrite EE in DE. split.
      + intros H. destruct H as [Hh|r'' Hh H|mu' sd' Hh H|nic rr [(Hh & _)|(Hh & _)] H|dc Hh H]; try congruence; rewrite ?HI, ?U in Hh; try discriminate Hh.
        rewrite DE in H. injection H as <- <-. rewrite DX, KM. reflexivity.
      + intros ->. assert (Q := ct_mpg vsum sdist vexp vsf vstore part argpart P (o_ns o) g (arr m q) mu sd).
        rewrite KM, DX in Q. apply Q; [rewrite HI, ?U; reflexivity|exact DE].
    - intros U. apply RED. intros r'. rewrite U in *. change (String.eqb "DSL" "MP") with false in CF. change (String.eqb "DSL" "MPG") with false in CF.
      change (String.eqb "DSL" "LS" || String.eqb "DSL" "NICDM") with false in CF. change (String.eqb "DSL" "DSL") with true in CF. cbv iota in CF.
      unfold dsl_mixed. destruct (dsl_train_nn sdist argpart (p_metric P) (p_k P) (all_rows (arr m0 x))) as [nt|] eqn:LF; cbn [bind] in CF; [|discriminate].
      assert (KM : known_metric (p_metric P) = true).
      { unfold dsl_train_nn in LF. destruct (known_metric (p_metric P)); [reflexivity|discriminate LF]. }
      injection CF as CF. assert (EE := f_equal f_extra CF). cbn [f_extra] in EE. rewrite <- EE in DE. cbn [bind]. split.
      + intros H. destruct H as [Hh|r'' Hh H|mu' sd' Hh H|nic rr [(Hh & _)|(Hh & _)] H|dc Hh H]; try congruence; rewrite ?HI, ?U in Hh; try discriminate Hh.
        rewrite DE in H. injection H as <-. rewrite DX, KM. reflexivity.
      + intros ->. assert (Q := ct_dsl vsum sdist vexp vsf vstore part argpart P (o_ns o) g (arr m q) _ ltac:(rewrite HI, ?U; reflexivity) DE).
        rewrite KM, DX in Q. exact Q.
  Qed.

  (** C155: predict votes with the labels as they are now if these were int32 and
      nothing was sampled, and with the labels at the time of fit otherwise *)
  Theorem C155_labels :
    forall m0 ns ind x y m o, since_fit m0 ns ind x y m o -> good_sample ind (arr m0 x) ->
    forall q,
      (forall l, predicts m o q (Done l) <->
         exists D c, transforms m o q (Done D) /\ y = Some c /\
           predict_fixed argpart (p_kw P) D (sample_labels P ind (arr m0 x) (labels_seen P m0 m c)) = Ok l) /\
      (forall e, predicts m o q (Failed e) <->
         transforms m o q (Failed e) \/
         exists D, transforms m o q (Done D) /\
           (y = None /\ e = ValueError \/
            exists c, y = Some c /\ predict_fixed argpart (p_kw P) D (sample_labels P ind (arr m0 x) (labels_seen P m0 m c)) = Raise e)) /\
      ~ predicts m o q NotFitted.
  Proof.
    intros m0 ns ind x y m o L G q.
    destruct (since_fit_state _ _ _ _ _ _ _ _ _ _ _ _ _ _ _ L) as (FC & SH & f & CF & En & Eo & Ef).
    destruct (deref_stored _ _ _ _ P m0 m _ _ _ _ _ SH CF) as (DX & _ & DE & DY). cbv zeta in *.
    set (g := deref m (stored_fit P m0 x y f)) in *.
    assert (Vf : e_fit (view m o) = Some g) by (unfold view; cbn; rewrite Ef; reflexivity).
    assert (FD : forall D e, finite_dists D = Raise e -> e = ValueError).
    { intros D e. unfold finite_dists. destruct (enforce_finite _) as [l|e'] eqn:E; cbn [bind]; [discriminate|].
      unfold enforce_finite in E. destruct (if existsb _ _ then _ else _); [|discriminate]. congruence. }
    assert (TS : forall r, sound m o = Ok tt -> (transforms m o q r <-> exists s', do_transform vsum sdist vexp vsf vstore part argpart P (view m o) (arr m q) s' r)).
    { intros r S. split.
      - intros (st & H). inversion H; subst; [eauto|congruence].
      - intros (s' & H). eexists. eapply z_transform; eassumption. }
    assert (PS : forall r, sound m o = Ok tt -> (predicts m o q r <-> exists s', do_predict vsum sdist vexp vsf vstore part argpart P (view m o) (arr m q) s' r)).
    { intros r S. split.
      - intros (st & H). inversion H; subst; [eauto|congruence].
      - intros (s' & H). eexists. eapply z_predict; eassumption. }
    destruct (sound m o) as [[]|e0] eqn:SD.
    2:{ assert (TB : forall r, transforms m o q r <-> r = Failed e0).
        { intros r. split; [intros (st & H); inversion H; subst; congruence|intros ->; eexists; now apply z_transform_bad]. }
        assert (PB : forall r, predicts m o q r <-> r = Failed e0).
        { intros r. split; [intros (st & H); inversion H; subst; congruence|intros ->; eexists; now apply z_predict_bad]. }
        split; [|split].
        - intros l. rewrite PB. split; [discriminate|]. intros (D & c & T & _). apply TB in T. discriminate.
        - intros e. rewrite PB. split; [intros H; injection H as ->; left; now apply TB|].
          intros [H|(D & T & _)]; [apply TB in H; congruence|apply TB in T; discriminate].
        - rewrite PB. discriminate. }
    assert (TD := fun r => TS r eq_refl). assert (PD := fun r => PS r eq_refl). clear TS PS. unfold sample_labels.
    split; [|split].
    - intros l. rewrite PD. split.
      + intros (s' & H). inversion H as [| | |s1 D F f' Ff T FF E1 E2]; subst.
        assert (f' = g) by congruence. subst f'. rewrite DY in E2. destruct y as [c|]; cbn in E2; [|discriminate].
        destruct (predict_fixed _ _ _ _) as [l'|] eqn:PF; [|discriminate]. injection E2 as ->.
        exists D, c. split; [apply TD; eauto|]. auto.
      + intros (D & c & O & -> & PF). apply TD in O as (s1 & T).
        destruct (finite_dists D) as [F|e] eqn:FF; [|unfold predict_fixed in PF; rewrite FF in PF; discriminate].
        eexists. assert (Q := dp_run vsum sdist vexp vsf vstore part argpart P (view m o) (arr m q) s1 D F g Vf T FF).
        rewrite DY in Q. cbn [option_map] in Q. rewrite PF in Q. exact Q.
    - intros e. rewrite PD. split.
      + intros (s' & H). inversion H as [|s1 e1 NF T|s1 D e1 NF T FF|s1 D F f' Ff T FF E1 E2]; subst.
        * left. apply TD. eauto.
        * right. exists D. split; [apply TD; eauto|]. destruct y as [c|].
          -- right. exists c. split; [reflexivity|]. unfold predict_fixed. rewrite FF. reflexivity.
          -- left. split; [reflexivity|]. eapply FD, FF.
        * assert (f' = g) by congruence. subst f'. right. exists D. split; [apply TD; eauto|].
          rewrite DY in E2. destruct y as [c|]; cbn in E2; [right; exists c|left].
          -- destruct (predict_fixed _ _ _ _) as [l'|] eqn:PF; [discriminate|]. injection E2 as ->. auto.
          -- injection E2 as <-. auto.
      + intros [O|(D & O & W)].
        * apply TD in O as (s1 & T). exists s1. apply dp_transform; [congruence|exact T].
        * apply TD in O as (s1 & T). destruct (finite_dists D) as [F|e'] eqn:FF.
          -- eexists. assert (Q := dp_run vsum sdist vexp vsf vstore part argpart P (view m o) (arr m q) s1 D F g Vf T FF).
             rewrite DY in Q. destruct W as [(-> & ->)|(c & -> & PF)]; cbn [option_map] in Q; [exact Q|].
             rewrite PF in Q. exact Q.
          -- exists s1. assert (e = e') as ->.
             { destruct W as [(_ & ->)|(c & _ & PF)]; [symmetry; eapply FD, FF|].
               unfold predict_fixed in PF. rewrite FF in PF. cbn in PF. congruence. }
             eapply dp_empty; [congruence|exact T|exact FF].
    - rewrite PD. intros (s' & H). remember NotFitted as oc eqn:Eoc. destruct H as [U| | |s1 D F f0 Ff T FF]; try congruence.
      destruct (f_y f0); [destruct (predict_fixed _ _ _ _); discriminate Eoc|discriminate Eoc].
  Qed.
End Statements.

(** *** concrete cases: points on a line, squared Euclidean distances *)
Notation sfl := (since_fit fsum sq noexp nosf (fun x => x) (ref_part (V := f64)) (ref_argpart (V := f64))).
Notation trf := (transforms fsum sq noexp nosf (fun x => x) (ref_part (V := f64)) (ref_argpart (V := f64))).
Notation prf := (predicts fsum sq noexp nosf (fun x => x) (ref_part (V := f64)) (ref_argpart (V := f64))).
Notation osh := (one_shot fsum sq noexp nosf (fun x => x) (ref_part (V := f64)) (ref_argpart (V := f64))).
Notation cfit := (core_fit fsum sq (ref_part (V := f64)) (ref_argpart (V := f64))).

(** array 0: training data, array 1: query; array 0 of labels; [b]: float32 and int32 *)
Definition mem0 (b : bool) (X Q y : list Z) : @mem f64 :=
  Mem (fun r => match r with 0 => line X | _ => line Q end) (fun _ => b) (fun _ => y) (fun _ => b).
Definition obj0 : @sobj f64 := SObj 2 None None None None.

(** a fresh object, fit, then assignments of the caller *)
Lemma fit_write P b X Z y h m f : p_kind P = KNone -> fit_check (line X) = Ok tt -> cfit P 2 [] (line X) (Some y) = Ok f ->
  (forall o, srun fsum sq noexp nosf (fun x => x) (ref_part (V := f64)) (ref_argpart (V := f64)) P (mem0 b X Z y, o) h (m, o)) ->
  Forall no_fit_call h -> exists o, sfl P (mem0 b X Z y) 2 [] 0 (Some 0) m o.
Proof.
  intros K FC CF R F.
  assert (Q := df_ok fsum sq (ref_part (V := f64)) (ref_argpart (V := f64)) P (view (mem0 b X Z y) obj0) [] (line X) (Some y) f FC CF).
  assert (S := z_fit fsum sq noexp nosf (fun x => x) (ref_part (V := f64)) (ref_argpart (V := f64)) P (mem0 b X Z y) obj0 [] 0 (Some 0) _ _ Q).
  eexists. exists obj0. eexists. exists h. split; [reflexivity|]. split; [exact S|]. split; [apply R|exact F].
Qed.

(** no hubness reduction *)
Definition PS1 : par := Par None "sqeuclidean" 5 KNone 1 (Some 1).
Definition cd (X Z : arr2 f64) := cross_dists sq "sqeuclidean" Z (rows_at X (seq 0 (nrow X))).
Lemma osh1 X Z : fit_check X = Ok tt -> trans_check Z (rows_at X (seq 0 (nrow X))) = Ok tt -> osh PS1 2 [] X Z (Ok (cd X Z)).
Proof. intros A B. unfold one_shot. cbn [p_hr PS1]. cbv zeta. rewrite A. cbn [bind]. unfold transform_without_hr. cbn [the_sample p_kind PS1 sampling_check vantage bind]. rewrite B. reflexivity. Qed.
Definition m_data (b : bool) : @mem f64 :=
  let m := mem0 b [0; 10]%Z [1]%Z [4; 5]%Z in Mem (set_at (arr m) 0 (line [50; 1]%Z)) (arr32 m) (lab m) (lab32 m).
Definition m_lab (b : bool) : @mem f64 :=
  let m := mem0 b [0; 10]%Z [1]%Z [4; 5]%Z in Mem (arr m) (arr32 m) (set_at (lab m) 0 [8; 9]%Z) (lab32 m).

(** Fitted to 0 and 10 with the labels 4 and 5, the query 1 gets the label 4.  When
    the caller then overwrites the data with 50 and 1 it gets the label 5, and
    when it overwrites the labels with 8 and 9 it gets the label 8, unless the
    arrays had another dtype: then it still gets 4. *)
Theorem C155_witness :
  (exists o, sfl PS1 (mem0 true [0; 10]%Z [1]%Z [4; 5]%Z) 2 [] 0 (Some 0) (mem0 true [0; 10]%Z [1]%Z [4; 5]%Z) o /\
     forall l, prf PS1 (mem0 true [0; 10]%Z [1]%Z [4; 5]%Z) o 1 (Done l) <-> l = [4]%Z) /\
  (forall b, exists o, sfl PS1 (mem0 b [0; 10]%Z [1]%Z [4; 5]%Z) 2 [] 0 (Some 0) (m_data b) o /\
     forall l, prf PS1 (m_data b) o 1 (Done l) <-> l = [if b then 5 else 4]%Z) /\
  (forall b, exists o, sfl PS1 (mem0 b [0; 10]%Z [1]%Z [4; 5]%Z) 2 [] 0 (Some 0) (m_lab b) o /\
     forall l, prf PS1 (m_lab b) o 1 (Done l) <-> l = [if b then 8 else 4]%Z).
Proof.
  assert (FC : fit_check (line [0; 10]%Z) = Ok tt) by (vm_compute; reflexivity).
  assert (FC' : fit_check (line [50; 1]%Z) = Ok tt) by (vm_compute; reflexivity).
  assert (TC : trans_check (line [1]%Z) (rows_at (line [0; 10]%Z) (seq 0 2)) = Ok tt) by (vm_compute; reflexivity).
  assert (TC' : trans_check (line [1]%Z) (rows_at (line [50; 1]%Z) (seq 0 2)) = Ok tt) by (vm_compute; reflexivity).
  assert (G : good_sample [] (line [0; 10]%Z)) by (intros j []).
  assert (OU : forall X Z D D', osh PS1 2 [] X Z (Ok D) -> osh PS1 2 [] X Z (Ok D') -> D = D').
  { intros X Z D D' A B. unfold one_shot in A, B. cbn [p_hr PS1] in A, B. cbv zeta in A, B. congruence. }
  assert (LF : forall b h m, (forall o, srun fsum sq noexp nosf (fun x => x) (ref_part (V := f64)) (ref_argpart (V := f64)) PS1 (mem0 b [0; 10]%Z [1]%Z [4; 5]%Z, o) h (m, o)) ->
     Forall no_fit_call h -> exists o, sfl PS1 (mem0 b [0; 10]%Z [1]%Z [4; 5]%Z) 2 [] 0 (Some 0) m o).
  { intros b h m R F. eapply fit_write; [reflexivity|exact FC|reflexivity|exact R|exact F]. }
  assert (PR : forall b m o X, sfl PS1 (mem0 b [0; 10]%Z [1]%Z [4; 5]%Z) 2 [] 0 (Some 0) m o ->
     (forall r, trf PS1 m o 1 (of_result r) <-> osh PS1 2 [] X (arr m 1) r) -> osh PS1 2 [] X (arr m 1) (Ok (cd X (arr m 1))) ->
     forall l, prf PS1 m o 1 (Done l) <->
       predict_fixed (ref_argpart (V := f64)) (Some 1) (cd X (arr m 1))
         (sample_labels PS1 [] (line [0; 10]%Z) (labels_seen PS1 (mem0 b [0; 10]%Z [1]%Z [4; 5]%Z) m 0)) = Ok l).
  { intros b m o X L T O l.
    destruct (C155_labels _ _ _ _ _ _ _ _ _ _ _ _ _ _ _ L G 1) as (A & _). rewrite A. split.
    - intros (D & c & TD & Ec & PF). apply (T (Ok D)) in TD. rewrite (OU _ _ _ _ O TD). injection Ec as <-. exact PF.
    - intros PF. exists (cd X (arr m 1)), 0. split; [apply (T (Ok _)); exact O|]. split; [reflexivity|exact PF]. }
  assert (SEEN : forall b m o, sfl PS1 (mem0 b [0; 10]%Z [1]%Z [4; 5]%Z) 2 [] 0 (Some 0) m o ->
     forall r, trf PS1 m o 1 (of_result r) <-> osh PS1 2 [] (if b then arr m 0 else line [0; 10]%Z) (arr m 1) r).
  { intros b m o L r. destruct b.
    - apply (C155_shared _ _ _ _ _ _ _ _ _ _ _ _ _ _ _ L); auto.
    - apply (C155_copied _ _ _ _ _ _ _ _ _ _ _ _ _ _ _ L); auto. }
  split; [|split].
  - destruct (LF true [] (mem0 true [0; 10]%Z [1]%Z [4; 5]%Z)) as (o & L); [intros; apply zr_nil|constructor|].
    exists o. split; [exact L|]. intros l. rewrite (PR _ _ _ _ L (SEEN _ _ _ L)) by (apply osh1; assumption).
    replace (predict_fixed _ _ _ _) with (Ok [4]%Z) by (vm_compute; reflexivity). split; congruence.
  - intros b. destruct (LF b [ZWrite 0 (line [50; 1]%Z)] (m_data b)) as (o & L).
    + intros o. apply (zr_snoc _ _ _ _ _ _ _ _ _ [] _ AnsWrite (mem0 b [0; 10]%Z [1]%Z [4; 5]%Z, o)); [apply zr_nil|].
      apply (z_write fsum sq noexp nosf (fun x => x) (ref_part (V := f64)) (ref_argpart (V := f64)) PS1 (mem0 b [0; 10]%Z [1]%Z [4; 5]%Z) o 0 (line [50; 1]%Z)); reflexivity.
    + repeat constructor.
    + exists o. split; [exact L|]. intros l. rewrite (PR _ _ _ _ L (SEEN _ _ _ L)) by (destruct b; apply osh1; assumption).
      replace (predict_fixed _ _ _ _) with (Ok [if b then 5 else 4]%Z) by (destruct b; vm_compute; reflexivity). split; congruence.
  - intros b. destruct (LF b [ZWriteLabels 0 [8; 9]%Z] (m_lab b)) as (o & L).
    + intros o. apply (zr_snoc _ _ _ _ _ _ _ _ _ [] _ AnsWrite (mem0 b [0; 10]%Z [1]%Z [4; 5]%Z, o)); [apply zr_nil|].
      apply (z_labels fsum sq noexp nosf (fun x => x) (ref_part (V := f64)) (ref_argpart (V := f64)) PS1 (mem0 b [0; 10]%Z [1]%Z [4; 5]%Z) o 0 [8; 9]%Z); reflexivity.
    + repeat constructor.
    + exists o. split; [exact L|]. intros l. rewrite (PR _ _ _ _ L (SEEN _ _ _ L)) by (destruct b; apply osh1; assumption).
      replace (predict_fixed _ _ _ _) with (Ok [if b then 8 else 4]%Z) by (destruct b; vm_compute; reflexivity). split; congruence.
Qed.

(** local scaling with one neighbour *)
Definition PS2 : par := Par (Some "ls"%string) "sqeuclidean" 1 KNone 1 (Some 1).
Definition m_ls : @mem f64 :=
  let m := mem0 true [0; 1]%Z [2]%Z [4; 5]%Z in Mem (set_at (arr m) 0 (line [0; 10]%Z)) (arr32 m) (lab m) (lab32 m).
Definition apart (r r' : result (arr2 f64)) : bool :=
  match r, r' with Ok D, Ok D' => negb (neq (at2 D 0 0) (at2 D' 0 0)) | _, _ => false end.
(** Fitted to 0 and 1, with the data overwritten by 0 and 10: the answer to the query
    2 belongs neither to the old nor to the new data. *)
Theorem C155_witness_mixed :
  exists o D, sfl PS2 (mem0 true [0; 1]%Z [2]%Z [4; 5]%Z) 2 [] 0 (Some 0) m_ls o /\
    (forall r, trf PS2 m_ls o 1 (of_result r) <-> r = Ok D) /\
    forall X D', X = line [0; 1]%Z \/ X = line [0; 10]%Z -> osh PS2 2 [] X (line [2]%Z) (Ok D') -> neq (at2 D 0 0) (at2 D' 0 0) = false.
Proof.
  assert (FC : fit_check (line [0; 1]%Z) = Ok tt) by (vm_compute; reflexivity).
  assert (L : exists o, sfl PS2 (mem0 true [0; 1]%Z [2]%Z [4; 5]%Z) 2 [] 0 (Some 0) m_ls o).
  { assert (CK : match cfit PS2 2 [] (line [0; 1]%Z) (Some [4; 5]%Z) with Ok _ => true | _ => false end = true) by (vm_compute; reflexivity).
    destruct (cfit PS2 2 [] (line [0; 1]%Z) (Some [4; 5]%Z)) as [f|] eqn:CF; [|discriminate CK].
    apply (fit_write PS2 true [0; 1]%Z [2]%Z [4; 5]%Z [ZWrite 0 (line [0; 10]%Z)] m_ls f); [reflexivity|exact FC|exact CF| |repeat constructor].
    intros o. apply (zr_snoc _ _ _ _ _ _ _ _ _ [] _ AnsWrite (mem0 true [0; 1]%Z [2]%Z [4; 5]%Z, o)); [apply zr_nil|].
    apply (z_write fsum sq noexp nosf (fun x => x) (ref_part (V := f64)) (ref_argpart (V := f64)) PS2 (mem0 true [0; 1]%Z [2]%Z [4; 5]%Z) o 0 (line [0; 10]%Z)); reflexivity. }
  destruct L as (o & L).
  assert (T := fun r => proj1 (C155_mixed _ _ _ _ _ _ _ _ _ _ _ _ _ _ _ L eq_refl eq_refl "ls"%string eq_refl 1 r) (or_introl eq_refl)).
  set (B := (check_array (arr m_ls 0);; ls_mixed _ _ _ _ _ _ _ _ _ _)) in T.
  assert (C : forall X, X = line [0; 1]%Z \/ X = line [0; 10]%Z ->
     apart B (ls_fixed fsum sq noexp (ref_part (V := f64)) false "sqeuclidean" 1 SNone 2 X (line [2]%Z)) = true).
  { intros X [-> | ->]; vm_compute; reflexivity. }
  assert (E : exists D, B = Ok D).
  { destruct B as [D|e]; [eauto|]. discriminate (C _ (or_introl eq_refl)). }
  destruct E as (D & E). rewrite E in *. exists o, D. split; [exact L|]. split; [exact T|].
  intros X D' HX O. specialize (C X HX). unfold one_shot in O. cbn [p_hr PS2] in O. cbv zeta in O.
  destruct O as [(U & _)|[(U & _)|[(_ & O)|[(U & _)|(U & _)]]]]; try discriminate U.
  change (p_metric PS2) with "sqeuclidean"%string in O. change (p_k PS2) with 1 in O. change (the_sample PS2 []) with SNone in O.
  rewrite <- O in C. unfold apart in C. apply Bool.negb_true_iff in C. exact C.
Qed.

Print Assumptions C155_copied.
Print Assumptions C155_shared.
Print Assumptions C155_mixed.
Print Assumptions C155_labels.
Print Assumptions C155_witness.
Print Assumptions C155_witness_mixed.
