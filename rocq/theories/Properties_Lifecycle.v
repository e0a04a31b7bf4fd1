(** C137-C139: fit, transform and predict of the approximate estimator, called in
    any order (approximate.py:1393-1526), with fixed vantage points. *)
From Coq Require Import String.
From Coq Require Import Reals ZArith List Arith Lia Lra Bool.
From Verif Require Import Py Num NumT Arr Sort Conc M_LS M_Dist M_HubnessClass M_Approx M_ApproxPredict M_Lifecycle S_Lifecycle.
From Verif Require Import P_Approx P_ApproxFixed P_ApproxPredict P_Lifecycle Properties_Approx.
Import ListNotations.
Local Open Scope nat_scope.
Local Open Scope py_scope.

Section Statements.
  Context {V : Type} {N : Num V}.
  Variable vsum : list V -> V.
  Variable sdist : string -> nat -> (nat -> V) -> (nat -> V) -> V.
  Variables (vexp : V -> V) (vsf : V -> V -> V -> V).
  Variable vstore : f64 -> V.
  Variable part : list V -> list nat -> list V.
  Variable argpart : list V -> list nat -> list nat.
  Variable P : par.
  Notation do_fit := (do_fit vsum sdist part argpart P).
  Notation do_transform := (do_transform vsum sdist vexp vsf vstore part argpart P).
  Notation do_predict := (do_predict vsum sdist vexp vsf vstore part argpart P).
  Notation history := (history vsum sdist vexp vsf vstore part argpart P).
  Notation last_fit := (last_fit vsum sdist vexp vsf vstore part argpart P).
  Notation failed_refit := (failed_refit vsum sdist vexp vsf vstore part argpart P).
  Notation one_shot := (one_shot vsum sdist vexp vsf vstore part argpart P).

  Lemma last_fit_state ns0 ind X y s : last_fit ns0 ind X y s ->
    fit_check X = Ok tt /\ exists f, core_fit vsum sdist part argpart P ns0 ind X y = Ok f /\
      e_ns s = fit_ns P ns0 (nrow X) /\ e_n s = Some (nrow X) /\ e_fit s = Some f /\ ns_like P ns0 (e_ns s).
  Proof.
    intros (h1 & s1 & s2 & h2 & H1 & F & H2 & K).
    assert (L : ns_like P ns0 (e_ns s1)) by (eapply history_ns; [|exact H1]; left; reflexivity).
    destruct (history_keeps _ _ _ _ _ _ _ _ _ _ _ K H2) as (A & B & C).
    inversion F as [| |f FC CF]; subst. split; [exact FC|]. exists f.
    rewrite (core_fit_like _ _ _ _ _ ns0) in CF by exact L. rewrite A, B, C. cbn.
    destruct (fit_ns_like P ns0 _ (nrow X) L) as (L' & E'). split; [exact CF|]. rewrite <- E'. auto.
  Qed.
  Lemma last_fit_sparse ns0 ind X y s f D : last_fit ns0 ind X y s -> good_sample ind X ->
    core_fit vsum sdist part argpart P ns0 ind X y = Ok f -> ncol D = nrow (f_X f) ->
    exists S, sparse_of P D f (nrow X) = Ok S.
  Proof.
    intros _ G CF E. destruct (core_fit_ok _ _ _ _ _ _ _ _ _ _ CF) as (EX & EI & _). apply sparse_fits.
    - rewrite EI, E, EX. reflexivity.
    - intros K j I. rewrite EI in I. unfold the_sample in I. destruct (p_kind P); [congruence| |]; apply G, I.
  Qed.

  (** C137: before any successful fit nothing is computed *)
  Theorem C137_unfitted :
    forall ns0 h s, history (fresh ns0) h s -> Forall no_fit h ->
    forall Z, check_array Z = Ok tt ->
      (forall s' o, do_transform s Z s' o <-> s' = s /\ o = NotFitted) /\
      (forall s' o, do_predict s Z s' o <-> s' = s /\ o = NotFitted).
  Proof.
    intros ns0 h s H F Z C.
    assert (U : e_fit s = None) by (eapply history_unfitted; [|exact F|exact H]; reflexivity).
    split; intros s' o; split.
    - intros D. inversion D; subst; try congruence. auto.
    - intros (-> & ->). now apply dt_unfitted.
    - intros D. inversion D; subst; try congruence. auto.
    - intros (-> & ->). now apply dp_unfitted.
  Qed.

  (** C137: transform depends on the last successful fit only *)
  Theorem C137_transform :
    forall ns0 ind X y s, last_fit ns0 ind X y s -> good_sample ind X ->
    forall Z,
      (forall D, (exists s', do_transform s Z s' (Done D)) <-> one_shot ns0 ind X Z (Ok D)) /\
      (forall e, (exists s', do_transform s Z s' (Failed e)) <-> one_shot ns0 ind X Z (Raise e)) /\
      (forall s', ~ do_transform s Z s' NotFitted) /\
      (exists r, one_shot ns0 ind X Z r).
  Proof.
    intros ns0 ind X y s L G Z.
    destruct (last_fit_state _ _ _ _ _ L) as (FC & f & CF & EN & En & Ef & _).
    assert (OS : forall r, core_transform vsum sdist vexp vsf vstore part argpart P (e_ns s) f Z r <-> one_shot ns0 ind X Z r).
    { intros r. rewrite EN. eapply core_one_shot; eassumption. }
    assert (SP : forall D, core_transform vsum sdist vexp vsf vstore part argpart P (e_ns s) f Z (Ok D) -> exists S, sparse_of P D f (nrow X) = Ok S).
    { intros D H. eapply last_fit_sparse; try eassumption. apply (core_shape _ _ _ _ _ _ _ _ _ _ _ _ H). }
    split; [|split; [|split]].
    - intros D. rewrite (transform_done _ _ _ _ _ _ _ _ s f _ _ _ Ef En). rewrite <- OS. split; [tauto|].
      intros H. split; [|split; [exact H|apply SP, H]].
      destruct (check_array Z) as [[]|e] eqn:C; [reflexivity|]. discriminate (core_bad _ _ _ _ _ _ _ _ _ _ _ _ _ C H).
    - intros e. rewrite (transform_failed _ _ _ _ _ _ _ _ s f _ _ _ Ef En). rewrite <- OS. split.
      + intros [C|(C & [H|(D & H & E)])].
        * destruct (core_total vsum sdist vexp vsf vstore part argpart P _ _ _ _ _ (e_ns s) Z CF) as (r & H).
          rewrite <- (core_bad _ _ _ _ _ _ _ _ _ _ _ _ _ C H). exact H.
        * exact H.
        * destruct (SP D H) as (S & E'). congruence.
      + intros H. destruct (check_array Z) as [[]|e'] eqn:C; [right; auto|left].
        apply (core_bad _ _ _ _ _ _ _ _ _ _ _ _ _ C) in H. congruence.
    - intros s'. eapply transform_fitted; eassumption.
    - destruct (core_total vsum sdist vexp vsf vstore part argpart P _ _ _ _ _ (e_ns s) Z CF) as (r & H). exists r. now apply OS.
  Qed.

  (** C137: two objects with the same last fit cannot be told apart, whatever
      happened to them before *)
  Theorem C137_fresh :
    forall ns0 ind X y s s', last_fit ns0 ind X y s -> last_fit ns0 ind X y s' -> good_sample ind X ->
    forall Z o, (exists t, do_transform s Z t o) <-> (exists t, do_transform s' Z t o).
  Proof.
    intros ns0 ind X y s s' L L' G Z o.
    destruct (C137_transform _ _ _ _ _ L G Z) as (A & B & C & _). destruct (C137_transform _ _ _ _ _ L' G Z) as (A' & B' & C' & _).
    destruct o as [D|e|].
    - rewrite A, A'. reflexivity.
    - rewrite B, B'. reflexivity.
    - split; intros (t & H); exfalso; [eapply C|eapply C']; exact H.
  Qed.

  (** C137: the attributes after transform.  Every entry of the sparse form is an
      entry of the result, at the column of its vantage point. *)
  Theorem C137_attributes :
    forall ns0 ind X y s, last_fit ns0 ind X y s -> good_sample ind X ->
    forall Z s' D, do_transform s Z s' (Done D) ->
      nrow D = nrow Z /\ ncol D = length (vantage (the_sample P ind) (nrow X)) /\
      e_sec s' = Some D /\
      match p_kind P with
      | KNone => e_sparse s' = Some (SameArray D)
      | _ => exists M, e_sparse s' = Some (Csr (nrow Z) (nrow X) M) /\
          forall i, i < nrow Z ->
            (NoDup ind -> forall c, c < length ind -> M i (nth c ind 0) = Some (at2 D i c)) /\
            (forall j, ~ In j ind -> M i j = None)
      end.
  Proof.
    intros ns0 ind X y s L G Z s' D H.
    destruct (last_fit_state _ _ _ _ _ L) as (FC & f & CF & EN & En & Ef & _).
    destruct (core_fit_ok _ _ _ _ _ _ _ _ _ _ CF) as (EX & EI & _).
    inversion H as [| | | |f' n D' S C F' N' T SE]; subst. cbn [e_sec e_sparse].
    assert (f' = f) by congruence. assert (n = nrow X) by congruence. subst f' n.
    destruct (core_shape _ _ _ _ _ _ _ _ _ _ _ _ T) as (R & Cc). rewrite EX in Cc. cbn in Cc.
    split; [exact R|]. split; [exact Cc|]. split; [reflexivity|].
    assert (Q := sparse_is P f D (nrow X) S SE). rewrite EI in Q. unfold the_sample in Q, Cc.
    destruct (p_kind P) eqn:K; [now rewrite Q| |]; cbn [vantage] in Q, Cc; destruct Q as (M & SM & ->); exists M; rewrite R;
      (split; [reflexivity|]); intros i Hi; rewrite (sparse_ok_inv _ _ _ _ SM); unfold coo_tocsr; rewrite <- R in Hi;
      (split; [intros Nd c Hc|intros j Hj]).
    all: rewrite coo_row by exact Hi.
    1, 3: change ind with (cand_row (FixedInd ind) i) at 1; rewrite hits_single by (cbn; auto; congruence); reflexivity.
    all: rewrite hits_none by (cbn; auto; congruence); reflexivity.
  Qed.

  (** C137: predict depends on the last successful fit only *)
  Theorem C137_predict :
    forall ns0 ind X y s, last_fit ns0 ind X y s -> good_sample ind X ->
    forall Z,
      (forall l, (exists s', do_predict s Z s' (Done l)) <->
         exists D yl, one_shot ns0 ind X Z (Ok D) /\ y = Some yl /\
           predict_fixed argpart (p_kw P) D (sample_labels P ind X yl) = Ok l) /\
      (forall e, (exists s', do_predict s Z s' (Failed e)) <->
         one_shot ns0 ind X Z (Raise e) \/
         exists D, one_shot ns0 ind X Z (Ok D) /\
           (y = None /\ e = ValueError \/
            exists yl, y = Some yl /\ predict_fixed argpart (p_kw P) D (sample_labels P ind X yl) = Raise e)) /\
      (forall s', ~ do_predict s Z s' NotFitted).
  Proof.
    intros ns0 ind X y s L G Z.
    destruct (last_fit_state _ _ _ _ _ L) as (FC & f & CF & EN & En & Ef & _).
    destruct (core_fit_ok _ _ _ _ _ _ _ _ _ _ CF) as (_ & _ & EY & _).
    destruct (C137_transform _ _ _ _ _ L G Z) as (TD & TF & _ & _).
    assert (FD : forall D e, finite_dists D = Raise e -> e = ValueError).
    { intros D e. unfold finite_dists. destruct (enforce_finite _) as [l|e'] eqn:E; cbn [bind]; [discriminate|].
      unfold enforce_finite in E. destruct (if existsb _ _ then _ else _); [|discriminate]. congruence. }
    split; [|split].
    - intros l. split.
      + intros (s' & H). inversion H as [| | |s1 D F f' Ff T FF E1 E2]; subst.
        assert (f' = f) by congruence. subst f'. rewrite EY in E2. destruct y as [yl|]; cbn in E2; [|discriminate].
        destruct (predict_fixed _ _ _ _) as [l'|] eqn:PF; [|discriminate]. injection E2 as ->.
        exists D, yl. split; [apply TD; eauto|]. auto.
      + intros (D & yl & O & -> & PF). apply TD in O as (s1 & T).
        destruct (finite_dists D) as [F|e] eqn:FF; [|unfold predict_fixed in PF; rewrite FF in PF; discriminate].
        eexists. assert (Q := dp_run vsum sdist vexp vsf vstore part argpart P s Z s1 D F f Ef T FF).
        rewrite EY in Q. cbn [option_map] in Q. rewrite PF in Q. exact Q.
    - intros e. split.
      + intros (s' & H). inversion H as [|s1 e1 NF T|s1 D e1 NF T FF|s1 D F f' Ff T FF E1 E2]; subst.
        * left. apply TF. eauto.
        * right. exists D. split; [apply TD; eauto|]. destruct y as [yl|].
          -- right. exists yl. split; [reflexivity|]. unfold predict_fixed. rewrite FF. reflexivity.
          -- left. split; [reflexivity|]. eapply FD, FF.
        * assert (f' = f) by congruence. subst f'. right. exists D. split; [apply TD; eauto|].
          rewrite EY in E2. destruct y as [yl|]; cbn in E2; [right; exists yl|left].
          -- destruct (predict_fixed _ _ _ _) as [l'|] eqn:PF; [discriminate|]. injection E2 as ->. auto.
          -- injection E2 as <-. auto.
      + intros [O|(D & O & W)].
        * apply TF in O as (s1 & T). exists s1. apply dp_transform; [congruence|exact T].
        * apply TD in O as (s1 & T). destruct (finite_dists D) as [F|e'] eqn:FF.
          -- eexists. assert (Q := dp_run vsum sdist vexp vsf vstore part argpart P s Z s1 D F f Ef T FF).
             rewrite EY in Q. destruct W as [(-> & ->)|(yl & -> & PF)]; cbn [option_map] in Q; [exact Q|].
             rewrite PF in Q. exact Q.
          -- exists s1. assert (e = e') as ->.
             { destruct W as [(_ & ->)|(yl & _ & PF)]; [symmetry; eapply FD, FF|].
               unfold predict_fixed in PF. rewrite FF in PF. cbn in PF. congruence. }
             eapply dp_empty; [congruence|exact T|exact FF].
    - intros s' H. remember NotFitted as o eqn:Eo. destruct H as [U| | |s1 D F f0 Ff T FF]; try congruence.
      destruct (f_y f0); [destruct (predict_fixed _ _ _ _); discriminate Eo|discriminate Eo].
  Qed.

  (** *** C138: a failed refit *)

  Lemma failed_refit_state ns0 ind X y X' s : failed_refit ns0 ind X y X' s ->
    fit_check X = Ok tt /\ exists f, core_fit vsum sdist part argpart P ns0 ind X y = Ok f /\
      e_ns s = fit_ns P ns0 (nrow X) /\ e_n s = Some (nrow X') /\ e_fit s = Some f.
  Proof.
    intros (s3 & ind' & y' & s4 & e & h3 & L & C & F & H3 & K).
    destruct (last_fit_state _ _ _ _ _ L) as (FC & f & CF & EN & En & Ef & LK). split; [exact FC|]. exists f. split; [exact CF|].
    destruct (history_keeps _ _ _ _ _ _ _ _ _ _ _ K H3) as (A & B & D). rewrite A, B, D.
    inversion F as [e' FC'|e' FC' CF'|]; subst; [unfold fit_check in FC'; congruence|]. cbn. split; [|auto].
    (* without sampling, MP cannot fail here, and MPG fails for every data or none *)
    unfold fit_ns in *. destruct (p_kind P) eqn:KK; [|exact EN|exact EN].
    destruct (hr_is P "MP" || hr_is P "MPG") eqn:HM; [|exact EN]. exfalso.
    unfold core_fit, the_sample in CF, CF'. rewrite KK in CF, CF'. cbv zeta in CF, CF'. cbn [sampling_check bind] in CF, CF'.
    destruct (p_hr P) as [h|] eqn:Ph; [|discriminate CF'].
    destruct (hr_is P "MP"); [discriminate CF'|]. cbn [orb] in HM. rewrite HM in CF, CF'.
    destruct (known_metric (p_metric P)); cbn [negb guard bind] in CF, CF'; [|discriminate CF].
    destruct (mpg_moments _ _ _ _ (rows_at X' _)) as (mu, sd). discriminate CF'.
  Qed.

  (** C138: with a sample, the failed fit leaves the size of its data behind.  If a
      vantage point lies beyond that size every transform raises ValueError;
      otherwise the values are those of the old fit, but the sparse form has the
      width of the data that failed. *)
  Theorem C138_sampled :
    forall ns0 ind X y X' s, failed_refit ns0 ind X y X' s -> good_sample ind X -> p_kind P <> KNone ->
    forall Z D, one_shot ns0 ind X Z (Ok D) ->
      ((exists j, In j ind /\ nrow X' <= j) ->
         (forall s' D', ~ do_transform s Z s' (Done D')) /\
         (exists s', do_transform s Z s' (Failed ValueError) /\ e_sec s' = Some D)) /\
      ((forall j, In j ind -> j < nrow X') ->
         exists s' M, do_transform s Z s' (Done D) /\ e_sparse s' = Some (Csr (nrow Z) (nrow X') M)).
  Proof.
    intros ns0 ind X y X' s FR G KN Z D O.
    destruct (failed_refit_state _ _ _ _ _ _ FR) as (FC & f & CF & EN & En & Ef).
    destruct (core_fit_ok _ _ _ _ _ _ _ _ _ _ CF) as (EX & EI & _).
    assert (VI : vantage (the_sample P ind) (nrow X) = ind) by (unfold the_sample; destruct (p_kind P); [congruence| |]; reflexivity).
    rewrite VI in EX, EI.
    assert (OS : forall r, core_transform vsum sdist vexp vsf vstore part argpart P (e_ns s) f Z r <-> one_shot ns0 ind X Z r).
    { intros r. rewrite EN. eapply core_one_shot; eassumption. }
    apply OS in O.
    assert (C : check_array Z = Ok tt).
    { destruct (check_array Z) as [[]|e] eqn:C; [reflexivity|]. discriminate (core_bad _ _ _ _ _ _ _ _ _ _ _ _ _ C O). }
    assert (Zp : 0 < nrow Z).
    { unfold check_array in C. destruct (Nat.eqb_spec (nrow Z) 0); [discriminate C|lia]. }
    assert (SH : forall D', core_transform vsum sdist vexp vsf vstore part argpart P (e_ns s) f Z (Ok D') -> nrow D' = nrow Z /\ ncol D' = length (f_ind f)).
    { intros D' H. destruct (core_shape _ _ _ _ _ _ _ _ _ _ _ _ H) as (A & B). split; [exact A|]. rewrite B, EX, EI. reflexivity. }
    split.
    - intros Hj. rewrite <- EI in Hj.
      assert (SB : forall D', core_transform vsum sdist vexp vsf vstore part argpart P (e_ns s) f Z (Ok D') -> sparse_of P D' f (nrow X') = Raise ValueError).
      { intros D' H. destruct (SH D' H). apply sparse_breaks; auto. lia. }
      split.
      + intros s' D' H.
        destruct (proj1 (transform_done _ _ _ _ _ _ _ _ s f _ Z D' Ef En) (ex_intro _ s' H)) as (_ & T & S & E).
        rewrite (SB D' T) in E. discriminate.
      + eexists. split; [eapply dt_sparse; try eassumption; apply SB, O|reflexivity].
    - intros Hj. destruct (SH D O) as (A & B).
      destruct (sparse_fits P f D (nrow X') B) as (S & E); [intros _; now rewrite EI|].
      assert (Q := sparse_is P f D (nrow X') S E).
      assert (exists M, S = Csr (nrow Z) (nrow X') M) as (M & ->).
      { destruct (p_kind P); [congruence| |]; destruct Q as (M & _ & ->); rewrite A; eauto. }
      eexists. exists M. split; [eapply dt_ok; eassumption|reflexivity].
  Qed.

  (** C138: without a sample a failed fit changes nothing *)
  Theorem C138_not_sampled :
    forall ns0 ind X y X' s, failed_refit ns0 ind X y X' s -> p_kind P = KNone ->
    forall Z D, (exists s', do_transform s Z s' (Done D)) <-> one_shot ns0 ind X Z (Ok D).
  Proof.
    intros ns0 ind X y X' s FR KN Z D.
    destruct (failed_refit_state _ _ _ _ _ _ FR) as (FC & f & CF & EN & En & Ef).
    assert (OS : forall r, core_transform vsum sdist vexp vsf vstore part argpart P (e_ns s) f Z r <-> one_shot ns0 ind X Z r).
    { intros r. rewrite EN. eapply core_one_shot; eassumption. }
    rewrite (transform_done _ _ _ _ _ _ _ _ s f _ _ _ Ef En), <- OS. split; [tauto|]. intros H.
    split; [|split; [exact H|unfold sparse_of; rewrite KN; eauto]].
    destruct (check_array Z) as [[]|e] eqn:C; [reflexivity|]. discriminate (core_bad _ _ _ _ _ _ _ _ _ _ _ _ _ C H).
  Qed.

  (** C138: with random sampling, offering fewer objects than n_samples to fit fails,
      and from then on no transform succeeds, although one did before. *)
  Theorem C138_random :
    forall ns0 ind X y s3, last_fit ns0 ind X y s3 -> p_kind P = KRandom ->
    NoDup ind -> length ind = ns0 -> good_sample ind X ->
    forall ind' X' y' s4 o, check_array X' = Ok tt -> nrow X' < ns0 -> do_fit s3 ind' X' y' s4 o ->
      o = Failed ValueError /\
      forall h s, history s4 h s -> Forall keeps h ->
      forall Z s' D, ~ do_transform s Z s' (Done D).
  Proof.
    intros ns0 ind X y s3 L KR Nd Ln G ind' X' y' s4 o C' Hn F.
    destruct (last_fit_state _ _ _ _ _ L) as (FC & f & CF & EN & En & Ef & LK).
    assert (N3 : e_ns s3 = ns0) by (destruct LK as [E|(E & _)]; congruence).
    assert (CF' : core_fit vsum sdist part argpart P (e_ns s3) ind' X' y' = Raise ValueError).
    { unfold core_fit, the_sample. rewrite KR, N3. cbn [sampling_check]. destruct (Nat.leb_spec (nrow X') ns0); [reflexivity|lia]. }
    assert (O : o = Failed ValueError).
    { inversion F as [e FC'|e FC' E|f' FC' E]; subst; [unfold fit_check in FC'; congruence|congruence|congruence]. }
    split; [exact O|]. subst o. intros h s H K Z s' D T.
    assert (FR : failed_refit ns0 ind X y X' s) by (exists s3, ind', y', s4, ValueError, h; auto).
    assert (OB : one_shot ns0 ind X Z (Ok D)).
    { destruct (failed_refit_state _ _ _ _ _ _ FR) as (_ & f' & CF2 & EN' & En' & Ef').
      destruct (proj1 (transform_done _ _ _ _ _ _ _ _ s f' _ Z D Ef' En') (ex_intro _ s' T)) as (_ & T' & _).
      rewrite EN' in T'. eapply core_one_shot in T'; eassumption. }
    destruct (C138_sampled _ _ _ _ _ _ FR G ltac:(congruence) Z D OB) as (A & _).
    assert (J : exists j, In j ind /\ nrow X' <= j).
    { destruct (Exists_dec (fun j => nrow X' <= j) ind (fun j => le_dec (nrow X') j)) as [E|E].
      - apply Exists_exists in E. exact E.
      - exfalso. assert (I : incl ind (seq 0 (nrow X'))).
        { intros j Ij. apply in_seq. destruct (le_lt_dec (nrow X') j) as [Q|Q]; [|lia].
          exfalso. apply E. apply Exists_exists. eauto. }
        apply NoDup_incl_length in I; [|exact Nd]. rewrite seq_length in I. lia. }
    destruct (A J) as (B & _). exact (B s' D T).
  Qed.

  (** *** C139: the attributes after predict *)
  Theorem C139_attributes :
    forall ns0 ind X y s, last_fit ns0 ind X y s -> good_sample ind X ->
    forall Z s' l, do_predict s Z s' (Done l) ->
      exists D F, one_shot ns0 ind X Z (Ok D) /\ finite_dists D = Ok F /\ e_sec s' = Some F /\
        match p_kind P with
        | KNone => e_sparse s' = Some (SameArray F)
        | _ => exists M, e_sparse s' = Some (Csr (nrow Z) (nrow X) M) /\
            (NoDup ind -> forall i c, i < nrow Z -> c < length ind -> M i (nth c ind 0) = Some (at2 D i c))
        end.
  Proof.
    intros ns0 ind X y s L G Z s' l H. inversion H as [| | |s1 D F f Ef T FF E1 E2]; subst.
    exists D, F. split; [apply (C137_transform _ _ _ _ _ L G Z); eauto|]. split; [exact FF|]. cbn [e_sec e_sparse].
    split; [reflexivity|]. destruct (C137_attributes _ _ _ _ _ L G _ _ _ T) as (_ & _ & _ & Q).
    destruct (p_kind P); [reflexivity| |]; destruct Q as (M & E & Q); exists M; (split; [exact E|]);
      intros Nd i c Hi Hc; apply (Q i Hi); assumption.
  Qed.
End Statements.

(** enforce_finite_distances on a matrix: finite and non-negative afterwards, and
    unchanged if it was so before *)
Lemma finite_dists_signs (D F : arr2 xr) : finite_dists D = Ok F -> 0 < nrow D -> 0 < ncol D ->
  (forall i j, i < nrow D -> j < ncol D -> exists x, at2 F i j = XFin x /\ (0 <= x)%R) /\
  ((forall i j, i < nrow D -> j < ncol D -> exists x, at2 D i j = XFin x /\ (0 <= x)%R) ->
   forall i j, i < nrow D -> j < ncol D -> at2 F i j = at2 D i j).
Proof.
  intros E Hr Hc. unfold finite_dists in E. set (l := concat (map (fun i => rowl D i) (seq 0 (nrow D)))) in E.
  assert (Ll : length l = nrow D * ncol D) by apply flat_length.
  assert (Hl : l <> []) by (intros Q; rewrite Q in Ll; cbn in Ll; nia).
  destruct (proj2 (C47_exact l) Hl) as (r & Er & Lr & Hf & _ & Hk & _). rewrite Er in E. cbn [bind] in E. injection E as <-.
  assert (IX : forall i j, i < nrow D -> j < ncol D -> i * ncol D + j < length l) by (intros; rewrite Ll; nia).
  cbn [at2]. split.
  - intros i j Hi Hj. exact (Hf _ (IX i j Hi Hj)).
  - intros A i j Hi Hj. destruct (A i j Hi Hj) as (x & Ex & _).
    assert (En : nth (i * ncol D + j) l XNaN = XFin x) by (unfold l; rewrite flat_nth; assumption).
    rewrite Ex. apply Hk; [|now apply IX|exact En].
    intros a Ia. apply flat_in in Ia as (i' & j' & Hi' & Hj' & Ea). destruct (A i' j' Hi' Hj') as (x' & Ex' & Hx'). rewrite Ex' in Ea. injection Ea as <-. exact Hx'.
Qed.

(** C139: in exact arithmetic, after predict the attribute sec_dist_ is finite and
    non-negative, and it agrees with sec_dist_sparse_ exactly if all the sparse
    distances are finite and non-negative *)
Theorem C139_disagree :
  forall vsum sdist vexp vsf vstore part argpart P ns0 ind X y s,
    last_fit (V := xr) vsum sdist vexp vsf vstore part argpart P ns0 ind X y s -> good_sample ind X ->
    p_kind P <> KNone -> NoDup ind -> ind <> [] ->
  forall Z s' l, do_predict vsum sdist vexp vsf vstore part argpart P s Z s' (Done l) ->
  exists F M, e_sec s' = Some F /\ e_sparse s' = Some (Csr (nrow Z) (nrow X) M) /\
    (forall i c, i < nrow Z -> c < length ind -> exists x, at2 F i c = XFin x /\ (0 <= x)%R) /\
    ((forall i c, i < nrow Z -> c < length ind -> M i (nth c ind 0) = Some (at2 F i c)) <->
     (forall i c, i < nrow Z -> c < length ind -> exists x, M i (nth c ind 0) = Some (XFin x) /\ (0 <= x)%R)).
Proof.
  intros vsum sdist vexp vsf vstore part argpart P ns0 ind X y s L G KN Nd Ne Z s' l H.
  destruct (C139_attributes _ _ _ _ _ _ _ _ _ _ _ _ _ L G _ _ _ H) as (D & F & O & FF & ES & Q).
  assert (exists M, e_sparse s' = Some (Csr (nrow Z) (nrow X) M) /\
            forall i c, i < nrow Z -> c < length ind -> M i (nth c ind 0) = Some (at2 D i c)) as (M & EM & HM).
  { destruct (p_kind P); [congruence| |]; destruct Q as (M & E & Q); exists M; split; auto. }
  exists F, M. split; [exact ES|]. split; [exact EM|].
  destruct (proj1 (C137_transform _ _ _ _ _ _ _ _ _ _ _ _ _ L G Z)) with (D := D) as (_ & T). destruct (T O) as (t & T').
  destruct (C137_attributes _ _ _ _ _ _ _ _ _ _ _ _ _ L G _ _ _ T') as (Hr & Hc & _).
  assert (Hc' : ncol D = length ind) by (rewrite Hc; unfold the_sample; destruct (p_kind P); [congruence| |]; reflexivity).
  assert (C : check_array Z = Ok tt) by (inversion T'; assumption).
  assert (Zp : 0 < nrow Z) by (unfold check_array in C; destruct (Nat.eqb_spec (nrow Z) 0); [discriminate C|lia]).
  assert (Ip : 0 < length ind) by (destruct ind; [congruence|cbn; lia]).
  destruct (finite_dists_signs D F FF) as (A & B); [lia|lia|]. rewrite Hr, Hc' in A, B.
  split; [exact A|]. split.
  - intros E i c Hi Hcc. destruct (A i c Hi Hcc) as (x & Ex & Hx). exists x. rewrite E, Ex; auto.
  - intros E i c Hi Hcc. rewrite (B) by (auto; intros i' c' Hi' Hc''; destruct (E i' c' Hi' Hc'') as (x & Ex & Hx); rewrite HM in Ex by assumption; injection Ex as Ex; eauto).
    now apply HM.
Qed.

(** *** concrete cases: points on a line, squared Euclidean distances in float64 *)
Definition fz (z : Z) : f64 := nofZ z.
Definition line (l : list Z) : arr2 f64 := Arr2 (length l) 1 (fun i _ => fz (nth i l 0%Z)).
Definition fsum (l : list f64) : f64 := fold_left nadd l n0.
Definition sq (_ : string) (m : nat) (u v : nat -> f64) : f64 := sqdist fsum m u v.
Definition noexp (x : f64) : f64 := x.
Definition nosf (x _ _ : f64) : f64 := x.
Notation lf := (last_fit fsum sq noexp nosf (fun x => x) (ref_part (V := f64)) (ref_argpart (V := f64))).

(** no hubness reduction, random sample of two objects of three *)
Definition P1 : par := Par None "sqeuclidean" 5 KRandom 1 (Some 1).
Definition X1 := line [0; 10; 50]%Z.
Definition f1 := Fitted (rows_at X1 [2; 0]) (Some [7; 4]%Z) [2; 0] (@ENone f64).
Definition s1 : @est f64 := Est 2 (Some 3) (Some f1) None None.

Lemma case1 : lf P1 2 [2; 0] X1 (Some [4; 5; 7]%Z) s1.
Proof.
  exists [(CTransform (line [3]%Z), false); (CFit [] (line [1; 2]%Z) None, false)], (Est 2 (Some 2) None None None), s1, [].
  split; [|split; [|split; [constructor|constructor]]].
  - apply (h_snoc _ _ _ _ _ _ _ _ _ [(CTransform (line [3]%Z), false)]) with (s1 := fresh 2).
    + apply (h_snoc _ _ _ _ _ _ _ _ _ []) with (s1 := fresh 2); [constructor|].
      apply (s_trans fsum sq noexp nosf (fun x => x) (ref_part (V := f64)) (ref_argpart (V := f64)) P1 (fresh 2) (line [3]%Z) (fresh 2) NotFitted).
      apply dt_unfitted; [vm_compute; reflexivity|reflexivity].
    + apply (s_fit fsum sq noexp nosf (fun x => x) (ref_part (V := f64)) (ref_argpart (V := f64)) P1 (fresh 2) [] (line [1; 2]%Z) None (Est 2 (Some 2) None None None) (Failed ValueError)).
      apply (df_fail fsum sq (ref_part (V := f64)) (ref_argpart (V := f64)) P1 (fresh 2) [] (line [1; 2]%Z) None ValueError); vm_compute; reflexivity.
  - apply (df_ok fsum sq (ref_part (V := f64)) (ref_argpart (V := f64)) P1 (Est 2 (Some 2) None None None) [2; 0] X1 (Some [4; 5; 7]%Z) f1); [vm_compute; reflexivity|reflexivity].
Qed.

(** the object of [case1] answers a query, also after the failed calls before *)
Example C137_case :
  good_sample [2; 0] X1 /\
  exists s' D, do_transform fsum sq noexp nosf (fun x => x) (ref_part (V := f64)) (ref_argpart (V := f64)) P1 s1 (line [12; 40]%Z) s' (Done D) /\
    nrow D = 2 /\ ncol D = 2 /\ neq (at2 D 0 0) (fz 1444) = true /\ neq (at2 D 1 1) (fz 1600) = true.
Proof.
  assert (G : good_sample [2; 0] X1) by (intros j [<-|[<-|[]]]; cbn; lia).
  split; [exact G|].
  assert (Q : exists s', do_transform fsum sq noexp nosf (fun x => x) (ref_part (V := f64)) (ref_argpart (V := f64)) P1 s1 (line [12; 40]%Z) s'
                (Done (cross_dists sq "sqeuclidean" (line [12; 40]%Z) (rows_at X1 [2; 0])))).
  { apply (C137_transform _ _ _ _ _ _ _ _ _ _ _ _ _ case1 G).
    unfold one_shot. cbn [p_hr P1]. cbv zeta.
    replace (fit_check X1) with (Ok tt : result unit) by (vm_compute; reflexivity). cbn [bind].
    unfold transform_without_hr. cbn [the_sample p_kind P1 sampling_check vantage].
    replace (trans_check (line [12; 40]%Z) (rows_at X1 [2; 0])) with (Ok tt : result unit) by (vm_compute; reflexivity).
    reflexivity. }
  destruct Q as (s' & Q). exists s'. eexists. split; [exact Q|]. repeat split; vm_compute; reflexivity.
Qed.

(** C138: the working object of [case1] is broken by a failed fit of one object *)
Example C138_case :
  exists s4, do_fit fsum sq (ref_part (V := f64)) (ref_argpart (V := f64)) P1 s1 [] (line [8]%Z) None s4 (Failed ValueError) /\
    forall h s, history fsum sq noexp nosf (fun x => x) (ref_part (V := f64)) (ref_argpart (V := f64)) P1 s4 h s -> Forall keeps h ->
    forall Z s' D, ~ do_transform fsum sq noexp nosf (fun x => x) (ref_part (V := f64)) (ref_argpart (V := f64)) P1 s Z s' (Done D).
Proof.
  assert (F : do_fit fsum sq (ref_part (V := f64)) (ref_argpart (V := f64)) P1 s1 [] (line [8]%Z) None
                (Est 2 (Some 1) (Some f1) None None) (Failed ValueError)).
  { apply (df_fail fsum sq (ref_part (V := f64)) (ref_argpart (V := f64)) P1 s1 [] (line [8]%Z) None ValueError); [vm_compute; reflexivity|reflexivity]. }
  eexists. split; [exact F|].
  assert (Nd : NoDup [2; 0]) by (repeat constructor; cbn; intuition lia).
  refine (proj2 (C138_random _ _ _ _ _ _ _ _ _ _ _ _ _ case1 eq_refl Nd eq_refl _ _ _ _ _ _ _ _ F)).
  - intros j [<-|[<-|[]]]; cbn; lia.
  - vm_compute; reflexivity.
  - cbn; lia.
Qed.

(** C139: DisSim Local gives a negative distance: the sparse form keeps it *)
Definition P2 : par := Par (Some "dsl"%string) "sqeuclidean" 1 KRandom 1 (Some 1).
Definition X2 := line [0; 10; 50; 70]%Z.
Definition Z2 := line [9]%Z.
Definition attr_check (D F : arr2 f64) (sp : @sparse_attr f64) : bool :=
  match sp with
  | Csr _ _ M => match M 0 1 with Some v => nlt v n0 && nle n0 (at2 F 0 1) | None => false end
  | _ => false
  end.
(** all the computations of the run below *)
Definition dsl_body (f : @fitted f64) (dc : nat -> f64) : result (arr2 f64) :=
  trans_check Z2 (f_X f) ;;
  guard (negb (known_metric (p_metric P2))) ValueError ;;
  let D := cross_dists sq (p_metric P2) Z2 (f_X f) in
  let* nx := dsl_test_nn (ref_argpart (V := f64)) (p_k P2) D in
  let cx i := dist_to_cent fsum (p_metric P2) (ncol Z2) (at2 Z2 i) (centroid fsum (f_X f) (nth i nx [])) in
  Ok (Arr2 (nrow Z2) (nrow (f_X f)) (fun i j => nsub (nsub (at2 D i j) (cx i)) (dc j))).
Definition run_check (f : @fitted f64) : bool :=
  match f_extra f, f_y f with
  | ECent dc, Some y =>
    match dsl_body f dc with
    | Ok D => match sparse_of P2 D f 4, finite_dists D, predict_fixed (ref_argpart (V := f64)) (p_kw P2) D y with
              | Ok sp, Ok F, Ok _ => attr_check D F sp
              | _, _, _ => false
              end
    | Raise _ => false
    end
  | _, _ => false
  end.
Theorem C139_witness :
  exists s s' l F M v, lf P2 3 [0; 1; 2] X2 (Some [4; 5; 7; 8]%Z) s /\
    do_predict fsum sq noexp nosf (fun x => x) (ref_part (V := f64)) (ref_argpart (V := f64)) P2 s Z2 s' (Done l) /\
    e_sec s' = Some F /\ e_sparse s' = Some (Csr 1 4 M) /\ M 0 1 = Some v /\ nlt v n0 = true /\ nle n0 (at2 F 0 1) = true.
Proof.
  assert (B : match core_fit fsum sq (ref_part (V := f64)) (ref_argpart (V := f64)) P2 3 [0; 1; 2] X2 (Some [4; 5; 7; 8]%Z) with
              | Ok f => run_check f | Raise _ => false end = true) by (vm_compute; reflexivity).
  destruct (core_fit _ _ _ _ _ _ _ _ _) as [f|] eqn:CF; [|discriminate].
  unfold run_check in B. destruct (f_extra f) as [| | |dc] eqn:Ex; try discriminate B. destruct (f_y f) as [y|] eqn:Ey; [|discriminate B].
  destruct (dsl_body f dc) as [D|] eqn:ED; [|discriminate B].
  destruct (sparse_of P2 D f 4) as [sp|] eqn:ES; [|discriminate B]. destruct (finite_dists D) as [F|] eqn:EF; [|discriminate B].
  destruct (predict_fixed _ _ D y) as [l|] eqn:EP; [|discriminate B].
  unfold attr_check in B. destruct sp as [|n m M]; [discriminate B|]. destruct (M 0 1) as [v|] eqn:EM; [|discriminate B].
  apply andb_prop in B as (B1 & B2).
  set (s := Est 3 (Some 4) (Some f) None None).
  assert (L : lf P2 3 [0; 1; 2] X2 (Some [4; 5; 7; 8]%Z) s).
  { exists [], (fresh 3), s, []. split; [constructor|]. split; [|split; constructor].
    apply (df_ok fsum sq (ref_part (V := f64)) (ref_argpart (V := f64)) P2 (fresh 3) [0; 1; 2] X2 (Some [4; 5; 7; 8]%Z) f); [vm_compute; reflexivity|exact CF]. }
  assert (CT : core_transform fsum sq noexp nosf (fun x => x) (ref_part (V := f64)) (ref_argpart (V := f64)) P2 (e_ns s) f Z2 (Ok D)).
  { rewrite <- ED. apply ct_dsl; [reflexivity|exact Ex]. }
  assert (CZ : check_array Z2 = Ok tt) by (vm_compute; reflexivity).
  assert (T := dt_ok fsum sq noexp nosf (fun x => x) (ref_part (V := f64)) (ref_argpart (V := f64)) P2 s Z2 f 4 D (Csr n m M) CZ eq_refl eq_refl CT ES).
  assert (Q := dp_run fsum sq noexp nosf (fun x => x) (ref_part (V := f64)) (ref_argpart (V := f64)) P2 s Z2 _ D F f eq_refl T EF).
  rewrite Ey, EP in Q. cbn [p_kind P2 e_sparse] in Q.
  assert (n = 1 /\ m = 4) as (-> & ->).
  { destruct (core_shape _ _ _ _ _ _ _ _ _ _ _ _ CT) as (R & _). unfold sparse_of in ES. cbn [p_kind P2] in ES.
    destruct (sparse_distance_matrix _ _ _); cbn [bind] in ES; [|discriminate]. injection ES as <- <- _. auto. }
  exists s. eexists. exists l, F, M, v. split; [exact L|]. split; [exact Q|]. auto 10.
Qed.

Print Assumptions C137_unfitted.
Print Assumptions C137_transform.
Print Assumptions C137_fresh.
Print Assumptions C137_attributes.
Print Assumptions C137_predict.
Print Assumptions C137_case.
Print Assumptions C138_sampled.
Print Assumptions C138_not_sampled.
Print Assumptions C138_random.
Print Assumptions C138_case.
Print Assumptions C139_attributes.
Print Assumptions C139_disagree.
Print Assumptions C139_witness.
