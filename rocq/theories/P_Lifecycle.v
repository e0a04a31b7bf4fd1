(** Proofs about the life cycle of the approximate estimator. *)
From Coq Require Import String.
From Coq Require Import ZArith List Arith Lia Bool.
From Verif Require Import Py Num Arr Sort Conc M_LS M_Dist M_HubnessClass M_Approx M_ApproxPredict M_Lifecycle S_Lifecycle P_Approx P_ApproxFixed P_MPEmpiric.
Import ListNotations.
Local Open Scope py_scope.

Section Life.
  Context {V : Type} {N : Num V}.
  Variable vsum : list V -> V.
  Variable sdist : string -> nat -> (nat -> V) -> (nat -> V) -> V.
  Variables (vexp : V -> V) (vsf : V -> V -> V -> V).
  Variable vstore : f64 -> V.
  Variable part : list V -> list nat -> list V.
  Variable argpart : list V -> list nat -> list nat.
  Variable P : par.

  Notation core_fit := (core_fit vsum sdist part argpart P).
  Notation core_transform := (core_transform vsum sdist vexp vsf vstore part argpart P).
  Notation do_fit := (do_fit vsum sdist part argpart P).
  Notation do_transform := (do_transform vsum sdist vexp vsf vstore part argpart P).
  Notation do_predict := (do_predict vsum sdist vexp vsf vstore part argpart P).
  Notation step := (step vsum sdist vexp vsf vstore part argpart P).
  Notation history := (history vsum sdist vexp vsf vstore part argpart P).
  Notation one_shot := (one_shot vsum sdist vexp vsf vstore part argpart P).
  Notation est := (@est V).

  (** *** the setting n_samples *)
  Definition ns_like (ns0 ns : nat) : Prop := ns = ns0 \/ p_kind P = KNone /\ (hr_is P "MP" || hr_is P "MPG") = true.
  Lemma fit_ns_like ns0 ns n : ns_like ns0 ns -> ns_like ns0 (fit_ns P ns n) /\ fit_ns P ns n = fit_ns P ns0 n.
  Proof.
    unfold ns_like, fit_ns. intros [-> | (K & H)].
    - split; [|reflexivity]. destruct (p_kind P); auto. destruct (_ || _); auto.
    - rewrite K, H. auto.
  Qed.
  Lemma core_fit_like ns0 ns ind X y : ns_like ns0 ns -> core_fit ns ind X y = core_fit ns0 ind X y.
  Proof.
    intros [-> | (K & H)]; [reflexivity|]. unfold M_Lifecycle.core_fit, the_sample. rewrite K. reflexivity.
  Qed.

  Lemma transform_keeps (s s' : est) X o : do_transform s X s' o ->
    e_ns s' = e_ns s /\ e_n s' = e_n s /\ e_fit s' = e_fit s.
  Proof. intros H. destruct H; cbn; auto. Qed.
  Lemma predict_keeps (s s' : est) X o : do_predict s X s' o ->
    e_ns s' = e_ns s /\ e_n s' = e_n s /\ e_fit s' = e_fit s.
  Proof. intros H. destruct H; cbn; auto; eapply transform_keeps; eassumption. Qed.

  Lemma step_keeps (s s' : est) c b : keeps (c, b) -> step s c s' b ->
    e_ns s' = e_ns s /\ e_n s' = e_n s /\ e_fit s' = e_fit s.
  Proof.
    intros K H. destruct H as [ind X y s' o H|X s' o H|X s' o H].
    - destruct K as (e & K). cbn in K. destruct H as [e' H|e' H _|f H _]; auto; unfold fit_check in H; congruence.
    - eapply transform_keeps; eassumption.
    - eapply predict_keeps; eassumption.
  Qed.
  Lemma history_keeps (s s' : est) l : Forall keeps l -> history s l s' ->
    e_ns s' = e_ns s /\ e_n s' = e_n s /\ e_fit s' = e_fit s.
  Proof.
    intros K H. induction H as [|l c b s1 s2 H IH S]; auto.
    apply Forall_app in K as (K1 & K2). inversion K2; subst. destruct (IH K1) as (A & B & C).
    destruct (step_keeps _ _ _ _ H2 S) as (A' & B' & C'). repeat split; congruence.
  Qed.
  Lemma history_ns ns0 (s s' : est) l : ns_like ns0 (e_ns s) -> history s l s' -> ns_like ns0 (e_ns s').
  Proof.
    intros K H. induction H as [|l c b s1 s2 H IH S]; auto.
    destruct S as [ind X y s' o S|X s' o S|X s' o S].
    - destruct S; auto; cbn; apply fit_ns_like; exact IH.
    - destruct (transform_keeps _ _ _ _ S) as (-> & _). exact IH.
    - destruct (predict_keeps _ _ _ _ S) as (-> & _). exact IH.
  Qed.
  Lemma history_unfitted (s s' : est) l : e_fit s = None -> Forall no_fit l -> history s l s' -> e_fit s' = None.
  Proof.
    intros K F H. induction H as [|l c b s1 s2 H IH S]; auto.
    apply Forall_app in F as (F1 & F2). inversion F2; subst. specialize (IH F1).
    destruct S as [ind X y s' o S|X s' o S|X s' o S].
    - unfold no_fit in H2. cbn in H2. destruct S; auto. discriminate H2.
    - destruct (transform_keeps _ _ _ _ S) as (_ & _ & ->). exact IH.
    - destruct (predict_keeps _ _ _ _ S) as (_ & _ & ->). exact IH.
  Qed.

  (** *** the algorithm is one of five *)
  Lemma hr_is_some h : hr_is P h = true -> exists a, p_hr P = Some a /\ upper a = h.
  Proof. unfold hr_is. destruct (p_hr P) as [a|]; [|discriminate]. intros E. apply String.eqb_eq in E. eauto. Qed.

  (** fitted data: rows, sample, and the extras belong together *)
  Lemma core_fit_ok ns ind X y f : core_fit ns ind X y = Ok f ->
    f_X f = rows_at X (vantage (the_sample P ind) (nrow X)) /\ f_ind f = vantage (the_sample P ind) (nrow X) /\
    f_y f = option_map (sample_labels P ind X) y /\ sampling_check (the_sample P ind) (nrow X) ns = Ok tt.
  Proof.
    unfold M_Lifecycle.core_fit. cbv zeta. destruct (sampling_check _ _ _) as [[]|] eqn:S; cbn [bind]; [|discriminate].
    match goal with |- bind ?e _ = _ -> _ => destruct e as [ex|] end; cbn [bind]; [|discriminate].
    intros E. injection E as <-. cbn. repeat split; auto.
  Qed.

  Lemma core_one_shot ns ind X y f Z r : fit_check X = Ok tt -> core_fit ns ind X y = Ok f ->
    core_transform (fit_ns P ns (nrow X)) f Z r <-> one_shot ns ind X Z r.
  Proof.
    intros FC CF. destruct (core_fit_ok _ _ _ _ _ CF) as (EX & EI & _ & SC).
    unfold S_Lifecycle.one_shot. cbv zeta. rewrite FC. 
    unfold M_Lifecycle.core_fit in CF. cbv zeta in CF. rewrite SC in *. cbn [bind] in *.
    set (sm := the_sample P ind) in *. set (Xt := rows_at X (vantage sm (nrow X))) in *.
    destruct (p_hr P) as [h|] eqn:Ph.
    2:{ split.
        - intros H. destruct H as [_|r' Hh _|mu sd Hh _|nic rr [(Hh & _)|(Hh & _)] _|dc Hh _];
            try (apply hr_is_some in Hh as (a & Ea & _); congruence).
          rewrite EX. reflexivity.
        - intros ->. rewrite <- EX. apply ct_none. exact Ph. }
    assert (HI : forall a, hr_is P a = String.eqb (upper h) a) by (intros a; unfold hr_is; now rewrite Ph).
    rewrite !HI in CF.
    destruct (String.eqb_spec (upper h) "MP") as [U|_U1].
    { split.
      - intros H. left. split; [exact U|]. apply mf_run; [rewrite FC; exact SC|]. fold Xt.
        destruct H as [Hh|r' Hh H|mu sd Hh _|nic rr [(Hh & _)|(Hh & _)] _|dc Hh _]; try congruence;
          try (rewrite HI, U in Hh; discriminate Hh).
        rewrite EX in H. unfold fit_ns in H. rewrite HI, U in H. cbn in H.
        unfold sm, the_sample. destruct (p_kind P); exact H.
      - intros [(_ & H)|[(U' & _)|[(U' & _)|[(U' & _)|(U' & _)]]]]; try (rewrite U in U'; discriminate U').
        apply ct_mp; [rewrite HI, U; reflexivity|]. rewrite EX.
        destruct H as [e E|r E H]; [rewrite FC in E; cbn [bind] in E; congruence|].
        unfold fit_ns. rewrite HI, U. cbn. unfold sm, the_sample in *. destruct (p_kind P); exact H. }
    destruct (String.eqb_spec (upper h) "MPG") as [U|_U2].
    { destruct (known_metric (p_metric P)) eqn:KM; cbn [negb guard bind] in CF; [|discriminate].
      assert (G : forall r, core_transform (fit_ns P ns (nrow X)) f Z r <-> r = mpg_fixed vsum sdist vsf (p_metric P) sm ns X Z).
      { intros r'. unfold mpg_fixed. rewrite FC, SC. cbn [bind]. rewrite KM. cbn [negb guard bind]. fold Xt.
        destruct (mpg_moments vsum sdist (p_metric P) sm Xt) as (mu, sd). cbn [bind] in CF. injection CF as CF.
        split.
        - intros H. destruct H as [Hh|r'' Hh H|mu' sd' Hh H|nic rr [(Hh & _)|(Hh & _)] _|dc Hh _]; try congruence;
            try (rewrite HI, U in Hh; discriminate Hh).
          rewrite <- CF in H. cbn in H. injection H as <- <-. rewrite EX, KM. reflexivity.
        - intros ->.
          assert (Q := ct_mpg vsum sdist vexp vsf vstore part argpart P (fit_ns P ns (nrow X)) f Z mu sd).
          rewrite KM, EX in Q. apply Q; [rewrite HI, U; reflexivity|now rewrite <- CF]. }
      rewrite G. split.
      - intros ->. right; left. auto.
      - intros [(U' & _)|[(_ & H)|[(U' & _)|[(U' & _)|(U' & _)]]]]; try (rewrite U in U'; discriminate U'). exact H. }
    destruct (String.eqb (upper h) "LS" || String.eqb (upper h) "NICDM") eqn:UL.
    { destruct (ls_fit sdist part (p_metric P) (p_k P) Xt) as [rt|] eqn:LF; cbn [bind] in CF; [|discriminate].
      injection CF as CF.
      assert (KM : known_metric (p_metric P) = true).
      { unfold ls_fit in LF. destruct (known_metric (p_metric P)); [reflexivity|discriminate LF]. }
      assert (G : forall r, core_transform (fit_ns P ns (nrow X)) f Z r <->
                  r = ls_fixed vsum sdist vexp part (String.eqb (upper h) "NICDM") (p_metric P) (p_k P) sm ns X Z).
      { intros r'. unfold ls_fixed. rewrite FC, SC. cbn [bind]. fold Xt. rewrite LF. cbn [bind].
        split.
        - intros H. destruct H as [Hh|r'' Hh H|mu' sd' Hh H|nic rr Hh H|dc Hh _]; try congruence;
            try (rewrite HI in Hh; apply String.eqb_eq in Hh; rewrite Hh in UL; discriminate UL).
          rewrite <- CF in H. cbn in H. injection H as <-. rewrite EX, KM. cbn [negb guard bind].
          assert (nic = String.eqb (upper h) "NICDM") as ->.
          { destruct Hh as [(Hh & ->)|(Hh & ->)]; rewrite HI in Hh; apply String.eqb_eq in Hh; rewrite Hh; reflexivity. }
          reflexivity.
        - intros ->.
          assert (Q := ct_ls vsum sdist vexp vsf vstore part argpart P (fit_ns P ns (nrow X)) f Z (String.eqb (upper h) "NICDM") rt).
          rewrite KM, EX in Q. apply Q; [|now rewrite <- CF]. rewrite !HI.
          apply Bool.orb_true_iff in UL. destruct UL as [UL|UL]; apply String.eqb_eq in UL; rewrite UL; auto. }
      rewrite G. apply Bool.orb_true_iff in UL. destruct UL as [UL|UL]; apply String.eqb_eq in UL; rewrite UL; cbn [String.eqb]; split.
      - intros ->. right; right; left. auto.
      - intros [(U' & _)|[(U' & _)|[(_ & H)|[(U' & _)|(U' & _)]]]]; try discriminate U'. exact H.
      - intros ->. right; right; right; left. auto.
      - intros [(U' & _)|[(U' & _)|[(U' & _)|[(_ & H)|(U' & _)]]]]; try discriminate U'. exact H. }
    destruct (String.eqb_spec (upper h) "DSL") as [U|_U4]; [|discriminate CF].
    destruct (dsl_train_nn sdist argpart (p_metric P) (p_k P) Xt) as [nt|] eqn:LF; cbn [bind] in CF; [|discriminate].
    injection CF as CF.
    assert (KM : known_metric (p_metric P) = true).
    { unfold dsl_train_nn in LF. destruct (known_metric (p_metric P)); [reflexivity|discriminate LF]. }
    assert (G : forall r, core_transform (fit_ns P ns (nrow X)) f Z r <->
                r = dsl_fixed vsum sdist argpart (p_metric P) (p_k P) sm ns X Z).
    { intros r'. unfold dsl_fixed. rewrite FC, SC. cbn [bind]. fold Xt. rewrite LF. cbn [bind].
      split.
      - intros H. destruct H as [Hh|r'' Hh H|mu' sd' Hh H|nic rr [(Hh & _)|(Hh & _)] H|dc Hh H]; try congruence;
          try (rewrite HI, U in Hh; discriminate Hh).
        rewrite <- CF in H. cbn in H. injection H as <-. rewrite EX, KM. reflexivity.
      - intros ->.
        assert (Q := ct_dsl vsum sdist vexp vsf vstore part argpart P (fit_ns P ns (nrow X)) f Z
                       (fun j => dist_to_cent vsum (p_metric P) (ncol Xt) (at2 Xt j) (centroid vsum Xt (nth j nt [])))).
        rewrite KM, EX in Q. apply Q; [rewrite HI, U; reflexivity|now rewrite <- CF]. }
    rewrite G. rewrite U. split.
    - intros ->. do 4 right. auto.
    - intros [(U' & _)|[(U' & _)|[(U' & _)|[(U' & _)|(_ & H)]]]]; try discriminate U'. exact H.
  Qed.

  (** *** shapes *)
  Lemma core_shape ns f Z D : core_transform ns f Z (Ok D) -> nrow D = nrow Z /\ ncol D = nrow (f_X f).
  Proof.
    intros H. remember (Ok D) as r eqn:E. destruct H as [Hh|r Hh H|mu sd Hh H|nic rr Hh H|dc Hh H].
    - unfold transform_without_hr in E. destruct (trans_check _ _) as [[]|]; cbn [bind] in E; [|discriminate]. injection E as <-. auto.
    - destruct H as [K|e K T|K T J|buf K T J H]; try discriminate E; injection E as <-; [|auto]. cbv zeta.
      match goal with |- nrow (for_ ?n ?g ?M) = _ /\ _ => destruct (for_shape n g M) as (A & B); [intros; split; reflexivity|] end.
      rewrite A, B. auto.
    - destruct (trans_check _ _) as [[]|]; cbn [bind] in E; [|discriminate].
      destruct (known_metric _); cbn in E; [|discriminate]. injection E as <-. auto.
    - destruct (trans_check _ _) as [[]|]; cbn [bind] in E; [|discriminate].
      destruct (known_metric _); cbn [negb guard bind] in E; [|discriminate].
      destruct (ls_rtest _ _ _) as [rx|]; cbn [bind] in E; [|discriminate]. injection E as <-. auto.
    - destruct (trans_check _ _) as [[]|]; cbn [bind] in E; [|discriminate].
      destruct (known_metric _); cbn [negb guard bind] in E; [|discriminate].
      destruct (dsl_test_nn _ _ _) as [rx|]; cbn [bind] in E; [|discriminate]. injection E as <-. auto.
  Qed.

  (** *** the sparse form *)
  Lemma sparse_fits f D n : ncol D = length (f_ind f) -> (p_kind P <> KNone -> forall j, In j (f_ind f) -> j < n) ->
    exists S, sparse_of P D f n = Ok S.
  Proof.
    intros L H. unfold sparse_of. destruct (p_kind P) eqn:K; [eauto| |].
    all: destruct (sparse_ok_iff D (FixedInd (f_ind f)) n) as [(_ & i & j & _ & I & J)|((M & ->) & _)];
      [intros; cbn; congruence|specialize (H ltac:(discriminate) j I); lia|cbn [bind]; eauto].
  Qed.
  Lemma sparse_breaks f D n : ncol D = length (f_ind f) -> 0 < nrow D -> p_kind P <> KNone ->
    (exists j, In j (f_ind f) /\ n <= j) -> sparse_of P D f n = Raise ValueError.
  Proof.
    intros L R K (j & I & J). unfold sparse_of. destruct (p_kind P); [congruence| |].
    all: destruct (sparse_ok_iff D (FixedInd (f_ind f)) n) as [(-> & _)|(_ & H)];
      [intros; cbn; congruence|reflexivity|specialize (H 0 j R I); lia].
  Qed.
  Lemma sparse_is f D n S : sparse_of P D f n = Ok S ->
    match p_kind P with
    | KNone => S = SameArray D
    | _ => exists M, sparse_distance_matrix D (FixedInd (f_ind f)) n = Ok M /\ S = Csr (nrow D) n M
    end.
  Proof.
    unfold sparse_of. destruct (p_kind P); [congruence| |]; destruct (sparse_distance_matrix _ _ _) as [M|]; cbn [bind]; try discriminate;
      intros E; injection E as <-; eauto.
  Qed.

  (** outcomes of transform on an object that has been fitted *)
  Lemma transform_done (s : est) f n Z D : e_fit s = Some f -> e_n s = Some n ->
    (exists s', do_transform s Z s' (Done D)) <->
    check_array Z = Ok tt /\ core_transform (e_ns s) f Z (Ok D) /\ exists S, sparse_of P D f n = Ok S.
  Proof.
    intros F Nn. split.
    - intros (s' & H). inversion H; subst. assert (f0 = f) by congruence. assert (n0 = n) by congruence. subst. eauto.
    - intros (C & T & S & E). eexists. eapply dt_ok; eassumption.
  Qed.
  Lemma transform_failed (s : est) f n Z e : e_fit s = Some f -> e_n s = Some n ->
    (exists s', do_transform s Z s' (Failed e)) <->
    check_array Z = Raise e \/
    check_array Z = Ok tt /\ (core_transform (e_ns s) f Z (Raise e) \/
      exists D, core_transform (e_ns s) f Z (Ok D) /\ sparse_of P D f n = Raise e).
  Proof.
    intros F Nn. split.
    - intros (s' & H). inversion H; subst.
      + auto.
      + assert (f0 = f) by congruence. subst. right. auto.
      + assert (f0 = f) by congruence. assert (n0 = n) by congruence. subst. right. eauto.
    - intros [C|(C & [T|(D & T & E)])].
      + eexists. apply dt_check. exact C.
      + eexists. eapply dt_fail; eassumption.
      + eexists. eapply dt_sparse; eassumption.
  Qed.
  Lemma transform_fitted (s s' : est) f Z : e_fit s = Some f -> ~ do_transform s Z s' NotFitted.
  Proof. intros F H. inversion H; subst; congruence. Qed.

  (** after a successful fit every transform has an outcome *)
  Lemma core_total ns ind X y f ns' Z : core_fit ns ind X y = Ok f -> exists r, core_transform ns' f Z r.
  Proof.
    unfold M_Lifecycle.core_fit. cbv zeta. destruct (sampling_check _ _ _) as [[]|]; cbn [bind]; [|discriminate].
    set (Xt := rows_at _ _). destruct (p_hr P) as [h|] eqn:Ph.
    2:{ intros _. eexists. apply ct_none. exact Ph. }
    destruct (hr_is P "MP") eqn:H1.
    { intros _. destruct (transform_mp_ex sdist vstore (p_metric P) ns' (p_jobs P) (f_X f) Z) as (r & H). exists r. now apply ct_mp. }
    destruct (hr_is P "MPG") eqn:H2.
    { destruct (known_metric _); cbn [negb guard bind]; [|discriminate].
      destruct (mpg_moments _ _ _ _ _) as (mu, sd). cbn [bind]. intros E. injection E as <-. eexists. now eapply ct_mpg. }
    destruct (hr_is P "LS" || hr_is P "NICDM") eqn:H3.
    { destruct (ls_fit _ _ _ _ _) as [rt|]; cbn [bind]; [|discriminate]. intros E. injection E as <-.
      apply Bool.orb_true_iff in H3. destruct H3 as [H3|H3]; eexists; eapply ct_ls; cbn; auto. }
    destruct (hr_is P "DSL") eqn:H4; [|discriminate].
    destruct (dsl_train_nn _ _ _ _ _) as [nt|]; cbn [bind]; [|discriminate]. intros E. injection E as <-. eexists. now eapply ct_dsl.
  Qed.
  Lemma core_bad ns f Z e r : check_array Z = Raise e -> core_transform ns f Z r -> r = Raise e.
  Proof.
    intros C H.
    assert (E : e = ValueError).
    { unfold check_array in C. destruct (_ || _); cbn in C; congruence. }
    subst e. assert (T : trans_check Z (f_X f) = Raise ValueError) by (unfold trans_check; now rewrite C).
    destruct H as [Hh|r Hh H|mu sd Hh H|nic rr Hh H|dc Hh H]; try (unfold transform_without_hr; rewrite T; reflexivity).
    destruct H; congruence.
  Qed.
End Life.
