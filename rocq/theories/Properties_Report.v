(** C133, C134: the printed report of analyze_hubness. *)
From Coq Require Import String.
From Coq Require Import ZArith List Arith Lia Bool Permutation Sorted Reals.
From Flocq Require Import IEEE754.BinarySingleNaN.
From Verif Require Import Py Num Arr Sort Conc S_Neighbors M_IO M_Hubness M_SNN M_MPEmpiric M_LS M_Dist M_Centering M_GK M_KNN
  M_Analysis M_ID M_Report P_Analysis P_Report Properties_Analysis Properties_Analysis2 P_GK3 M_MPDist.
Import ListNotations.
Local Open Scope nat_scope.

Section Report.
  Variables (vexp vln : f64 -> f64) (vsum : list f64 -> f64) (vpow : f64 -> f64 -> f64).
  Variable argpart : list f64 -> list nat -> list nat.
  Variable part : list f64 -> list nat -> list f64.
  Variables (argsort stable : list f64 -> list nat) (sort : list f64 -> list f64).
  Variable cpu : nat.
  Variables (gaussi gammai : arr2 f64 -> string -> result (arr2 f64)) (idim : arr2 f64 -> result f64).
  Let sec_distance := sec_distance vexp vln vsum vpow argpart part cpu gaussi gammai.
  Let exp_run := exp_run vexp vln vsum vpow argpart part argsort stable sort cpu gaussi gammai.
  Let exps_run := exps_run vexp vln vsum vpow argpart part argsort stable sort cpu gaussi gammai.
  Let exps_print := exps_print vexp vln vsum vpow argpart part argsort stable sort cpu gaussi gammai py_round.
  Let analyze := analyze vexp vln vsum vpow argpart part argsort stable sort cpu gaussi gammai idim.
  Let analyze_print := analyze_print vexp vln vsum vpow argpart part argsort stable sort cpu gaussi gammai idim py_round.
  Implicit Types a : analysis (V:=f64).

  (** round() gives the nearest integer, the even one of two *)
  Theorem C133_round_nearest_even : forall x : f64,
    (nisfin x = true -> exists z, py_round x = Ok z /\
       (Rabs (IZR z - B2R x) <= 1 / 2)%R /\ ((Rabs (IZR z - B2R x) = 1 / 2)%R -> Z.even z = true)) /\
    (nisfin x = false -> py_round x = Raise (if nisnan x then ValueError else OverflowError)).
  Proof. intros x. split; [apply py_round_fin|apply py_round_nonfin]. Qed.

  (** the titles distinguish the twelve kinds of experiments *)
  Theorem C133_titles : forall n1 n2, known n1 = true -> known n2 = true -> header n1 = header n2 -> n1 = n2.
  Proof. exact header_inj. Qed.

  (** The report of a completed experiment: title, parameters, then the stored
      results, once per requested k in ascending order. *)
  Theorem C133_report_contents : forall a name hks kks x dim,
    exp_run a name hks kks (Ok x) ->
    exists hs ks hub acc tail o,
      report_one py_round a dim x
      = ([LTitle (header name)]
         ++ map (fun p => LParam (fst p) (snd p)) (default_params name)
         ++ flat_map (fun k => [LSk k (h_out (hub k)); LAnti k (h_anti (hub k)); LMax k (h_max (hub k))]) hs
         ++ map (fun k => LKnn k (acc k)) ks
         ++ tail, o) /\
      (** exactly the requested k, each once, ascending *)
      StronglySorted Z.lt hs /\ (forall k, In k hs <-> In k hks) /\
      StronglySorted Z.lt ks /\ (forall k, In k ks <-> In k kks /\ a_classes a <> None) /\
      (** with the stored values *)
      (forall k, In k hs -> dget k (e_hub x) = Some (hub k)) /\
      (forall k, In k ks -> dget k (e_knn x) = Some (acc k)) /\
      (** the last lines *)
      exists gk em,
        match a_classes a with None => gk = LNoGk | Some _ => exists g, e_gk x = Some g /\ gk = LGk g end /\
        match a_vectors a with None => em = LNoEmbedding | Some X => em = LEmbedding (ncol X) end /\
        match dim with
        | None => tail = [gk; em; LNoDimension] /\ o = None
        | Some v => if nisfin v then exists z, py_round v = Ok z /\ tail = [gk; em; LDimension z] /\ o = None
                    else tail = [gk; em] /\ o = Some (if nisnan v then ValueError else OverflowError)
        end.
  Proof.
    intros a name hks kks x dim H.
    pose proof (exp_run_type _ _ _ _ _ _ _ _ _ _ _ _ _ _ _ _ _ H) as HT.
    pose proof (exp_run_parts _ _ _ _ _ _ _ _ _ _ _ _ _ _ _ _ _ H) as (_ & _ & Hh & Hk).
    pose proof (hub_loop_nodup _ _ _ _ _ _ _ Hh (NoDup_nil _) _ eq_refl) as NH.
    assert (NK : NoDup (map fst (e_knn x))).
    { destruct (a_classes a); [|destruct Hk as (-> & _); constructor].
      destruct Hk as (Hk & _). exact (knn_loop_nodup _ _ _ _ _ _ _ Hk (NoDup_nil _) _ eq_refl). }
    pose proof (hub_loop_ok _ _ _ _ _ _ _ Hh) as HO.
    exists (zsorted (map fst (e_hub x))), (zsorted (map fst (e_knn x))).
    exists (fun k => match dget k (e_hub x) with Some h => h | None => HubRes (HubOut [] []) n0 n0 end).
    exists (fun k => match dget k (e_knn x) with Some v => v | None => n0 end).
    exists (match e_gk x with None => LNoGk | Some g => LGk g end
      :: match a_vectors a with None => LNoEmbedding | Some X => LEmbedding (ncol X) end
      :: match dim with None => [LNoDimension] | Some v => match py_round v with Ok z => [LDimension z] | Raise _ => [] end end).
    exists (match dim with None => None | Some v => match py_round v with Ok _ => None | Raise e => Some e end end).
    split; [|split; [|split; [|split; [|split; [|split; [|split]]]]]].
    - unfold report_one, result_lines. rewrite HT.
      rewrite (flat_map_some _ (fun k => [LSk k (h_out (match dget k (e_hub x) with Some h => h | None => HubRes (HubOut [] []) n0 n0 end));
        LAnti k (h_anti (match dget k (e_hub x) with Some h => h | None => HubRes (HubOut [] []) n0 n0 end));
        LMax k (h_max (match dget k (e_hub x) with Some h => h | None => HubRes (HubOut [] []) n0 n0 end))]) (zsorted (map fst (e_hub x)))).
      2:{ intros k Ik. apply (proj1 (zsorted_In _ _)) in Ik. apply dget_keys in Ik as (h & ->). reflexivity. }
      rewrite (flat_map_some _ (fun k => [LKnn k (match dget k (e_knn x) with Some v => v | None => n0 end)]) (zsorted (map fst (e_knn x)))).
      2:{ intros k Ik. apply (proj1 (zsorted_In _ _)) in Ik. apply dget_keys in Ik as (h & ->). reflexivity. }
      rewrite flat_map_single.
      destruct dim as [v|]; [destruct (py_round v)|]; f_equal; cbn [app]; f_equal; repeat rewrite <- app_assoc; reflexivity.
    - now apply zsorted_lt.
    - intros k. rewrite zsorted_In, dget_keys. destruct (HO k) as (O1 & O2). split.
      + intros (v & E). destruct (in_dec Z.eq_dec k hks) as [I|I]; [assumption|]. rewrite (O2 I) in E. discriminate.
      + intros I. destruct (O1 I) as (h & _ & E & _). eauto.
    - now apply zsorted_lt.
    - intros k. rewrite zsorted_In, dget_keys. destruct (a_classes a) as [y|].
      + destruct Hk as (Hk & _). destruct (knn_loop_ok _ _ _ _ _ _ _ Hk k) as (O1 & O2). split.
        * intros (v & E). split; [|discriminate]. destruct (in_dec Z.eq_dec k kks) as [I|I]; [assumption|]. rewrite (O2 I) in E. discriminate.
        * intros (I & _). destruct (O1 I) as (v & _ & _ & E & _). eauto.
      + destruct Hk as (-> & _). split; [intros (v & E); discriminate|intros (_ & C); congruence].
    - intros k Ik. apply (proj1 (zsorted_In _ _)) in Ik. apply dget_keys in Ik as (h & ->). reflexivity.
    - intros k Ik. apply (proj1 (zsorted_In _ _)) in Ik. apply dget_keys in Ik as (h & ->). reflexivity.
    - exists (match e_gk x with None => LNoGk | Some g => LGk g end),
        (match a_vectors a with None => LNoEmbedding | Some X => LEmbedding (ncol X) end). split; [|split].
      + destruct (a_classes a); [|destruct Hk as (_ & ->); reflexivity].
        destruct Hk as (_ & g & _ & ->). exists g. split; reflexivity.
      + destruct (a_vectors a); reflexivity.
      + destruct dim as [v|]; [|split; reflexivity]. destruct (C133_round_nearest_even v) as (R1 & R2).
        destruct (nisfin v).
        * destruct (R1 eq_refl) as (z & E & _). exists z. rewrite E. repeat split.
        * rewrite (R2 eq_refl). split; reflexivity.
  Qed.

  (** [computed_with a name p z Q]: the secondary distances Q of experiment [name]
      were computed with value [z] for the parameter named [p]. *)
  Inductive computed_with (a : analysis (V:=f64)) : string -> string -> Z -> arr2 f64 -> Prop :=
  | cw_ls k Q : local_scaling vexp part (a_D a) k (a_metric a) None cpu 1 (Ok Q) -> computed_with a "ls" "k" k Q
  | cw_nicdm k Q : nicdm vexp vln vsum part (a_D a) k (a_metric a) None cpu 1 (Ok Q) -> computed_with a "nicdm" "k" k Q
  | cw_snn k Q : snn_serial argpart (a_D a) k (a_metric a) = Ok Q -> computed_with a "snn" "k" k Q
  | cw_dsl X k Q : a_vectors a = Some X -> dis_sim_local vsum argpart X k 1 None (Ok Q) -> computed_with a "dsl" "k" k Q
  | cw_wcent X Y g : a_vectors a = Some X -> weighted_centering vsum vpow X "cosine" (nofZ g) None = Ok Y ->
      computed_with a "wcent" "gamma" g (cosine_distance vsum Y)
  | cw_lcent1 X kappa gam Q : a_vectors a = Some X -> localized_centering vsum vpow argpart X None kappa (nofZ gam) cpu 1 (Ok Q) ->
      computed_with a "lcent" "kappa" kappa (Arr2 (nrow Q) (ncol Q) (fun i j => nsub n1 (at2 Q i j)))
  | cw_lcent2 X kappa gam Q : a_vectors a = Some X -> localized_centering vsum vpow argpart X None kappa (nofZ gam) cpu 1 (Ok Q) ->
      computed_with a "lcent" "gamma" gam (Arr2 (nrow Q) (ncol Q) (fun i j => nsub n1 (at2 Q i j))).

  (** every parameter the report shows is the one the distances were computed with *)
  Theorem C133_printed_parameters : forall a name hks kks x dim p z,
    exp_run a name hks kks (Ok x) -> In (LParam p z) (fst (report_one py_round a dim x)) ->
    computed_with a name p z (e_sec x).
  Proof.
    intros a name hks kks x dim p z H I.
    destruct (C133_report_contents a name hks kks x dim H) as (hs & ks & hub & acc & tail & o & E & _ & _ & _ & _ & _ & _ & gk & em & Hg & He & Ht).
    rewrite E in I. cbn [fst] in I.
    assert (J : In (p, z) (default_params name)).
    { repeat (apply in_app_or in I; destruct I as [I|I]).
      - destruct I as [I|[]]. discriminate.
      - apply in_map_iff in I as ((p', z') & I & J). cbn in I. injection I as <- <-. exact J.
      - apply in_flat_map in I as (k & _ & I). cbn in I. decompose [or] I; try discriminate; contradiction.
      - apply in_map_iff in I as (k & I & _). discriminate.
      - exfalso. assert (T : tail = [gk; em; LNoDimension] \/ (exists d, tail = [gk; em; LDimension d]) \/ tail = [gk; em]).
        { destruct dim as [v|]; [|left; apply Ht]. destruct (nisfin v); [destruct Ht as (d & _ & -> & _); eauto|right; right; apply Ht]. }
        assert (G : gk <> LParam p z) by (destruct (a_classes a); [destruct Hg as (g & _ & ->)|rewrite Hg]; discriminate).
        assert (M : em <> LParam p z) by (destruct (a_vectors a); rewrite He; discriminate).
        destruct T as [-> |[(d & ->)| ->]]; cbn in I; decompose [or] I; congruence. }
    clear E I. pose proof (exp_run_parts _ _ _ _ _ _ _ _ _ _ _ _ _ _ _ _ _ H) as (_ & S & _).
    remember (Ok (e_sec x)) as rs eqn:Er. destruct S as [r M|X r HX M|HN In1|HN ->]; [| |discriminate|discriminate].
    - destruct M; cbn in J; try contradiction.
      + destruct r as [Q|e']; [|destruct e'; discriminate]. cbn in Er. injection Er as ->. destruct J as [[= <- <-]|[]]. now apply cw_ls.
      + destruct r as [Q|e']; [|destruct e'; discriminate]. cbn in Er. injection Er as ->. destruct J as [[= <- <-]|[]]. now apply cw_nicdm.
      + destruct J as [[= <- <-]|[]]. apply cw_snn. now apply demote_ok.
    - destruct M; cbn in J; try contradiction.
      + destruct J as [[= <- <-]|[]].
        destruct (weighted_centering vsum vpow X "cosine" n1 None) as [Y|] eqn:W; cbn [bind] in Er; [|discriminate].
        assert (E2 : e_sec x = cosine_distance vsum Y) by congruence. rewrite E2.
        now apply (cw_wcent a X Y 1).
      + destruct r as [Q|]; cbn [bind] in Er; [|discriminate]. injection Er as <-.
        destruct J as [[= <- <-]|[[= <- <-]|[]]].
        * now apply (cw_lcent1 a X 40 1).
        * now apply (cw_lcent2 a X 40 1).
      + destruct J as [[= <- <-]|[]]. rewrite Er in *. now apply (cw_dsl a X).
  Qed.

  (** Without vectors, or with a finite estimate of the intrinsic dimension,
      printing changes neither the experiments kept nor the exception raised. *)
  Theorem C133_printing_changes_nothing : forall a exps hks kks,
    (forall X v, a_vectors a = Some X -> idim X = Ok v -> nisfin v = true) ->
    (forall a' ls o, analyze_print a exps hks kks a' ls o -> analyze a exps hks kks a' o) /\
    (forall a' o, analyze a exps hks kks a' o -> exists ls, analyze_print a exps hks kks a' ls o).
  Proof.
    intros a exps hks kks HF.
    assert (FD : forall dim, match a_vectors a with None => dim = None | Some X => exists v, idim X = Ok v /\ dim = Some v end ->
      forall v, dim = Some v -> is_ok (py_round v) = true).
    { intros dim Hd v ->. destruct (a_vectors a) as [X|] eqn:EX; [|discriminate]. destruct Hd as (v' & E & [= <-]).
      destruct (C133_round_nearest_even v) as (R1 & _). destruct (R1 (HF X v eq_refl E)) as (z & -> & _). reflexivity. }
    split.
    - intros a' ls o H. destruct H as [X e HX He|dim xs ls o Hd Hp].
      + now apply (an_idim _ _ _ _ _ _ _ _ _ _ _ _ _ a exps hks kks X).
      + apply an_run.
        * destruct (a_vectors a); [|exact I]. destruct Hd as (v & E & _). eauto.
        * eapply exps_print_run; [|exact Hp]. now apply FD.
    - intros a' o H. destruct H as [X e HX He|xs o Hd Hp].
      + exists []. now apply (ap_idim _ _ _ _ _ _ _ _ _ _ _ _ _ _ a exps hks kks X).
      + assert (exists dim, match a_vectors a with None => dim = None | Some X => exists v, idim X = Ok v /\ dim = Some v end) as (dim & Hd').
        { destruct (a_vectors a) as [X|]; [destruct Hd as (v & E); exists (Some v); eauto|exists None; reflexivity]. }
        destruct (exps_run_print vexp vln vsum vpow argpart part argsort stable sort cpu gaussi gammai py_round a dim hks kks _ xs o (FD dim Hd') Hp 0) as (ls & Hl).
        eexists. eapply ap_run; eassumption.
  Qed.

  Lemma print_lines a dim hks kks nr names xs ls o : exps_print a dim hks kks nr names xs ls o ->
    ~ In LThanks ls /\
    (o = None -> length xs = length names /\
       ls = (if (nr =? 0) && negb (length names =? 0) then [LHeadline] else []) ++ flat_map (fun x => fst (report_one py_round a dim x)) xs /\
       snd (report_all py_round a dim xs) = None /\ fst (report_all py_round a dim xs) = flat_map (fun x => fst (report_one py_round a dim x)) xs).
  Proof.
    assert (NT : forall x ls o, report_one py_round a dim x = (ls, o) -> ~ In LThanks ls).
    { intros x l0 o0 E I.
      assert (A : ~ In LThanks (result_lines x ++ [match a_vectors a with None => LNoEmbedding | Some X => LEmbedding (ncol X) end])).
      { clear. intros I. unfold result_lines in I. cbn [app In] in I. destruct I as [I|I]; [discriminate|].
        repeat (apply in_app_or in I; destruct I as [I|I]).
        - apply in_map_iff in I as (p & I & _). discriminate.
        - apply in_flat_map in I as (k & _ & I). destruct (dget k _); [cbn in I; decompose [or] I; try discriminate; contradiction|contradiction].
        - apply in_flat_map in I as (k & _ & I). destruct (dget k _); [destruct I as [I|[]]; discriminate|contradiction].
        - destruct I as [I|[]]. destruct (e_gk x); discriminate.
        - destruct I as [I|[]]. destruct (a_vectors a); discriminate. }
      unfold report_one in E. destruct dim as [v|]; [destruct (py_round v)|]; apply pair_equal_spec in E as (<- & _); auto;
        apply in_app_or in I as [I|[I|[]]]; auto; discriminate. }
    assert (NH : forall nr, ~ In LThanks (@headline f64 nr)).
    { intros [|m]; cbn; intuition discriminate. }
    intros H. induction H as [nr|nr name names e H|nr name names x ls e H R|nr name names x ls xs ls' o H R HP IH].
    - split; [easy|]. intros _. rewrite andb_false_r. repeat split.
    - split; [easy|discriminate].
    - split; [|discriminate]. intros I. apply in_app_or in I as [I|I]; [exact (NH _ I)|exact (NT _ _ _ R I)].
    - destruct IH as (IH1 & IH2). split.
      + intros I. apply in_app_or in I as [I|I]; [exact (NH _ I)|]. apply in_app_or in I as [I|I]; [exact (NT _ _ _ R I)|auto].
      + intros E. destruct (IH2 E) as (L & -> & S1 & S2). cbn [length flat_map report_all]. rewrite R. cbn [fst].
        split; [lia|]. split; [|].
        * unfold headline. replace (nr + 1 =? 0) with false by (symmetry; apply Nat.eqb_neq; lia). cbn [andb app Nat.eqb negb].
          rewrite andb_true_r. reflexivity.
        * destruct (report_all py_round a dim xs) as (l2, o2). cbn [fst snd] in *. subst. split; reflexivity.
  Qed.

  (** A call that ends normally prints the headline once, one report per
      experiment in the requested order, and the closing lines; calling
      print_analysis_report() afterwards on a new analysis repeats the same reports.
      A call that raises prints no closing lines. *)
  Theorem C133_whole_report : forall a exps hks kks a' ls o,
    analyze_print a exps hks kks a' ls o ->
    (o <> None -> ~ In LThanks ls) /\
    (o = None -> exists dim xs,
       match a_vectors a with None => dim = None | Some X => exists v, idim X = Ok v /\ dim = Some v end /\
       a_exps a' = a_exps a ++ xs /\ map e_type xs = split_comma exps /\
       ls = [LHeadline] ++ flat_map (fun x => fst (report_one py_round a dim x)) xs ++ [LThanks] /\
       (a_exps a = [] -> ls = fst (print_analysis_report py_round a' dim 0) ++ [LThanks] /\ snd (print_analysis_report py_round a' dim 0) = None)).
  Proof.
    intros a exps hks kks a' ls o H. destruct H as [X e HX He|dim xs ls o Hd Hp].
    - split; [intros _ []|discriminate].
    - destruct (print_lines _ _ _ _ _ _ _ _ _ Hp) as (NT & PL). split.
      + intros Ho. destruct o; [|congruence]. rewrite app_nil_r. exact NT.
      + intros ->. destruct (PL eq_refl) as (L & -> & R1 & R2). exists dim, xs.
        assert (NE : negb (length (split_comma exps) =? 0) = true).
        { pose proof (proj2 (proj2 (C41_names_split exps))). destruct (split_comma exps); [congruence|reflexivity]. }
        rewrite NE. cbn [Nat.eqb andb a_exps]. split; [exact Hd|]. split; [reflexivity|]. split; [|split].
        * assert (EX : forall nr names xs ls o, exps_print a dim hks kks nr names xs ls o -> o = None -> map e_type xs = names).
          { clear. intros nr names xs ls o H. induction H as [nr|nr name names e H|nr name names x ls e H R|nr name names x ls xs ls' o H R HP IH]; intros E; try discriminate; [reflexivity|].
            cbn. f_equal; [exact (exp_run_type _ _ _ _ _ _ _ _ _ _ _ _ _ _ _ _ _ H)|auto]. }
          exact (EX _ _ _ _ _ Hp eq_refl).
        * rewrite <- app_assoc. reflexivity.
        * intros E0. unfold print_analysis_report. cbn [a_exps]. rewrite E0. cbn [app].
          assert (AE : forall ys, report_all py_round (Ana (a_D a) (a_classes a) (a_vectors a) (a_metric a) xs) dim ys = report_all py_round a dim ys).
          { induction ys as [|y ys IHy]; [reflexivity|]. cbn [report_all]. rewrite IHy. reflexivity. }
          rewrite AE. destruct (report_all py_round a dim xs) as (l2, o2). cbn [fst snd] in *. subst. split; reflexivity.
  Qed.

  (** ** C134 (defect): if the estimate is NaN or infinite, printing raises
      after the first experiment and the others are never run. *)
  Theorem C134_report_aborts_analysis : forall a exps hks kks a' ls o X v,
    a_vectors a = Some X -> idim X = Ok v -> nisfin v = false ->
    analyze_print a exps hks kks a' ls o ->
    ~ In LThanks ls /\
    exists name rest, split_comma exps = name :: rest /\
      ((a_exps a' = a_exps a /\ exists e, exp_run a name hks kks (Raise e) /\ o = Some e) \/
       (exists x, exp_run a name hks kks (Ok x) /\ a_exps a' = a_exps a ++ [x] /\
          o = Some (if nisnan v then ValueError else OverflowError))).
  Proof.
    intros a exps hks kks a' ls o X v HX Hv HF H.
    assert (HO : o <> None -> ~ In LThanks ls) by (eapply C133_whole_report; exact H).
    destruct H as [X' e HX' He|dim xs ls o Hd Hp]; [congruence|].
    rewrite HX in Hd. destruct Hd as (v' & E & ->). assert (v' = v) by congruence. subst v'.
    destruct (C133_round_nearest_even v) as (_ & R2). specialize (R2 HF).
    assert (RO : forall x, snd (report_one py_round a (Some v) x) = Some (if nisnan v then ValueError else OverflowError)).
    { intros x. unfold report_one. rewrite R2. reflexivity. }
    pose proof (proj2 (proj2 (C41_names_split exps))) as NE. remember (split_comma exps) as names eqn:En.
    destruct Hp as [nr|nr name names e H|nr name names x l0 e H R|nr name names x l0 xs l' o H R HP].
    - congruence.
    - split; [apply HO; discriminate|]. exists name, names. split; [reflexivity|]. left. cbn [a_exps]. rewrite app_nil_r.
      split; [reflexivity|]. exists e. auto.
    - split; [apply HO; discriminate|]. exists name, names. split; [reflexivity|]. right. exists x. split; [exact H|].
      split; [reflexivity|]. specialize (RO x). now rewrite R in RO.
    - specialize (RO x). rewrite R in RO. discriminate.
  Qed.

  (** the same holds for print_analysis_report() called by the user *)
  Theorem C134_report_raises : forall a v nr, nisfin v = false -> a_exps a <> [] ->
    snd (print_analysis_report py_round a (Some v) nr) = Some (if nisnan v then ValueError else OverflowError) /\
    (forall d, ~ In (LDimension d) (fst (print_analysis_report py_round a (Some v) nr))).
  Proof.
    intros a v nr HF NE. destruct (C133_round_nearest_even v) as (_ & R2). specialize (R2 HF).
    unfold print_analysis_report. destruct (a_exps a) as [|x xs]; [congruence|]. cbn [report_all].
    unfold report_one at 1. rewrite R2.
    destruct (report_one py_round a (Some v) x) as (ls, o) eqn:R. unfold report_one in R. rewrite R2 in R.
    apply pair_equal_spec in R as (<- & <-). cbn [fst snd].
    split; [reflexivity|]. intros d I. apply in_app_or in I as [I|I]; [destruct nr as [|nr]; cbn in I; intuition discriminate|].
    apply in_app_or in I as [I|I]; [|destruct I as [I|[]]; destruct (a_vectors a); discriminate].
    unfold result_lines in I. destruct I as [I|I]; [discriminate|].
    repeat (apply in_app_or in I; destruct I as [I|I]).
    - apply in_map_iff in I as (p & I & _). discriminate.
    - apply in_flat_map in I as (k & _ & I). destruct (dget k _); [cbn in I; decompose [or] I; try discriminate; contradiction|contradiction].
    - apply in_flat_map in I as (k & _ & I). destruct (dget k _); [destruct I as [I|[]]; discriminate|contradiction].
    - destruct I as [I|[]]. destruct (e_gk x); discriminate.
  Qed.
End Report.

(** intrinsic_dimension(X=vectors) with its defaults (hubness_analysis.py:166) *)
Definition default_dimension (vsum : list f64 -> f64) (vln : f64 -> f64) (sort : list f64 -> list f64)
    (order : arr2 f64 -> list nat) (X : arr2 f64) : result f64 :=
  intrinsic_dimension vsum vln sort (order X) X 6 12 "mackay" "vector" None 5000.

(** One NaN coordinate of one object makes the estimate NaN, so the default
    call raises ValueError after its first experiment. *)
Theorem C134_nan_coordinate : forall vexp vln vsum vpow argpart part argsort stable sort cpu gaussi gammai order
    (a : analysis (V:=f64)) exps hks kks a' ls o X i f,
  (forall l, (exists v, In v l /\ nisnan v = true) -> nisnan (vsum l) = true) ->
  (forall v, nisnan v = true -> nisnan (vln v) = true) -> sort_ok sort ->
  (forall X, Permutation (order X) (seq 0 (nrow X))) ->
  a_vectors a = Some X -> 12 < nrow X -> i < nrow X -> f < ncol X -> nisnan (at2 X i f) = true ->
  analyze_print vexp vln vsum vpow argpart part argsort stable sort cpu gaussi gammai
    (default_dimension vsum vln sort order) py_round a exps hks kks a' ls o ->
  o <> None /\
  forall name rest, split_comma exps = name :: rest ->
    (forall e, ~ exp_run vexp vln vsum vpow argpart part argsort stable sort cpu gaussi gammai a name hks kks (Raise e)) ->
    o = Some ValueError /\ exists x, a_exps a' = a_exps a ++ [x] /\ e_type x = name.
Proof.
  intros vexp vln vsum vpow argpart part argsort stable sort cpu gaussi gammai order a exps hks kks a' ls o X i f
    SN LN SO PO HX Hn Hi Hf Hnan H.
  destruct (nan_estimate vsum vln sort SN LN SO (order X) X i f "mackay" 5000 6 12 (PO X) Hi Hf Hnan) as (v & Ev & Nv); [lia|lia|now right|].
  assert (FV : nisfin v = false) by (destruct v; try discriminate; reflexivity).
  destruct (C134_report_aborts_analysis _ _ _ _ _ _ _ _ _ _ _ _ _ _ _ _ _ _ _ _ X v HX Ev FV H) as (_ & name & rest & En & C).
  split; [destruct C as [(_ & e & _ & ->)|(x & _ & _ & ->)]; discriminate|].
  intros name' rest' En' NR. rewrite En in En'. injection En' as -> ->.
  destruct C as [(_ & e & HR & _)|(x & HR & Ea & ->)]; [now apply NR in HR|].
  rewrite Nv. split; [reflexivity|]. exists x. split; [exact Ea|]. exact (exp_run_type _ _ _ _ _ _ _ _ _ _ _ _ _ _ _ _ _ HR).
Qed.

(** ** Concrete cases *)
(** C133: rounding 2.5, 3.5, -0.5, 7 and the two kinds of failure *)
Example C133_round_case :
  py_round (ndiv (nofZ 5) (nofZ 2)) = Ok 2%Z /\ py_round (ndiv (nofZ 7) (nofZ 2)) = Ok 4%Z /\
  py_round (ndiv (nofZ (-1)) (nofZ 2)) = Ok 0%Z /\ py_round (nofZ 7) = Ok 7%Z /\
  py_round (ndiv (nofZ 8) (nofZ 3)) = Ok 3%Z /\
  py_round (ndiv n1 n0) = Raise OverflowError /\ py_round (ndiv n0 n0) = Raise ValueError.
Proof. vm_compute. repeat split. Qed.

(** thirteen objects on a line, the first vector unknown *)
Definition thirteen (X : option (arr2 f64)) : analysis :=
  new_analysis (Arr2 13 13 (fun i j => z64 (Z.abs (Z.of_nat i - Z.of_nat j)))) None X "distance".
Definition hole : arr2 f64 := Arr2 13 1 (fun i _ => if i =? 0 then nnan else z64 (Z.of_nat i)).
(** rows (e_2i + e_2i+1) / 2: any two are at distance 1 *)
Definition equidistant : arr2 f64 := Arr2 13 26 (fun i f => if f / 2 =? i then ndiv n1 (nofZ 2) else n0).
(** a logarithm, of which only the value at 1 matters here *)
Definition ln1 (v : f64) : f64 := if neq v n1 then n0 else nnan.

Lemma fsum_nan (l : list f64) : (exists v, In v l /\ nisnan v = true) -> nisnan (fsum l) = true.
Proof.
  unfold fsum. intros (v & I & Hv).
  assert (K : forall (l : list f64) a, nisnan a = true -> nisnan (fold_left nadd l a) = true).
  { clear. induction l as [|b l IH]; intros a Ha; [exact Ha|]. cbn [fold_left]. apply IH. now apply nan_add_l. }
  revert I. generalize (n0 (V:=f64)). induction l as [|b l IH]; intros a []; cbn [fold_left].
  - subst b. apply K. now apply nan_add_r.
  - now apply IH.
Qed.

(** C134, C133: printing stops the analysis after "orig"; without printing both
    experiments are done.  Without vectors the printed run completes as well. *)
Example C134_case : forall vexp vpow part argsort stable gaussi gammai,
  let order := fun X : arr2 f64 => seq 0 (nrow X) in
  (exists a' ls, analyze_print vexp (fun v => v) fsum vpow ref_argpart part argsort stable ref_sort 4 gaussi gammai
      (default_dimension fsum (fun v => v) ref_sort order) py_round (thirteen (Some hole)) "orig,mp" [1%Z] [] a' ls (Some ValueError) /\
    map e_type (a_exps a') = ["orig"]%string) /\
  (exists a', analyze vexp (fun v => v) fsum vpow ref_argpart part argsort stable ref_sort 4 gaussi gammai
      (default_dimension fsum (fun v => v) ref_sort order) (thirteen (Some hole)) "orig,mp" [1%Z] [] a' None /\
    map e_type (a_exps a') = ["orig"; "mp"]%string) /\
  (exists a' ls, analyze_print vexp (fun v => v) fsum vpow ref_argpart part argsort stable ref_sort 4 gaussi gammai
      (default_dimension fsum (fun v => v) ref_sort order) py_round (thirteen None) "orig,mp" [1%Z] [] a' ls None /\
    map e_type (a_exps a') = ["orig"; "mp"]%string /\ hd_error ls = Some LHeadline /\ In (LTitle "MUTUAL PROXIMITY (Empiric)") ls /\
    last ls LHeadline = LThanks).
Proof.
  intros vexp vpow part argsort stable gaussi gammai order.
  destruct (ex_loop (a_D (thirteen None)) "distance") as (d & Hd); [reflexivity|cbn; lia|reflexivity|].
  destruct (ex_loop (mp_full_core "distance" (a_D (thirteen None))) "distance") as (d2 & Hd2); [reflexivity|cbn; lia|reflexivity|].
  assert (RO : forall X, (forall Y, X = Some Y -> nrow Y = 13) -> exp_run vexp (fun v => v) fsum vpow ref_argpart part argsort stable ref_sort 4 gaussi gammai
      (thirteen X) "orig" [1%Z] [] (Ok (Exp "orig" (a_D (thirteen None)) d [] None))).
  { intros X HX. apply er_plain; [| |exact Hd|reflexivity].
    - apply exp_checks_ok. repeat split; [discriminate|exact HX].
    - exact (sd_matrix _ _ _ _ _ _ _ _ _ (thirteen X) "orig"%string _ (mm_orig _ _ _ _ _ _ _ _ _ _)). }
  assert (RM : forall X, (forall Y, X = Some Y -> nrow Y = 13) -> exp_run vexp (fun v => v) fsum vpow ref_argpart part argsort stable ref_sort 4 gaussi gammai
      (thirteen X) "mp" [1%Z] [] (Ok (Exp "mp" (mp_full_core "distance" (a_D (thirteen None))) d2 [] None))).
  { intros X HX. apply er_plain; [| |exact Hd2|reflexivity].
    - apply exp_checks_ok. repeat split; [discriminate|exact HX].
    - exact (sd_matrix _ _ _ _ _ _ _ _ _ (thirteen X) "mp"%string _ (mm_mp _ _ _ _ _ _ _ _ _ _)). }
  assert (HH : forall Y, Some hole = Some Y -> nrow Y = 13) by (intros Y [= <-]; reflexivity).
  assert (HNo : forall Y : arr2 f64, None = Some Y -> nrow Y = 13) by discriminate.
  destruct (nan_estimate fsum (fun v => v) ref_sort fsum_nan (fun v H => H) (ref_sort_ok f64_cmp) (order hole) hole 0 0 "mackay" 5000 6 12)
    as (v & Ev & Nv); [reflexivity|cbn; lia|cbn; lia|reflexivity|lia|cbn; lia|now right|].
  assert (PV : py_round v = Raise ValueError) by (destruct v; try discriminate; reflexivity).
  split; [|split].
  - eexists _, _. split.
    + eapply ap_run with (dim := Some v).
      * cbn [a_vectors thirteen new_analysis]. exists v. split; [exact Ev|reflexivity].
      * cbn. eapply xp_report; [apply RO, HH|]. unfold report_one. rewrite PV. reflexivity.
    + reflexivity.
  - eexists. split.
    + eapply an_run.
      * cbn [a_vectors thirteen new_analysis]. exists v. exact Ev.
      * cbn. eapply xr_step; [apply RO, HH|]. eapply xr_step; [apply RM, HH|]. apply xr_nil.
    + reflexivity.
  - eexists _, _. split.
    + eapply ap_run with (dim := None); [reflexivity|].
      cbn. eapply xp_step; [apply RO, HNo|reflexivity|]. eapply xp_step; [apply RM, HNo|reflexivity|]. apply xp_nil.
    + split; [reflexivity|]. split; [reflexivity|]. split; [|rewrite last_last; reflexivity].
      apply in_or_app. left. cbn [headline Nat.eqb app Nat.add]. right. apply in_or_app. right. left. reflexivity.
Qed.

(** C134: equidistant objects have an infinite estimate *)
Definition is_zero (x : f64) : bool := match x with B754_zero false => true | _ => false end.
Lemma is_zero_eq x : is_zero x = true -> x = B754_zero false.
Proof. destruct x as [[|]| | |]; try discriminate. reflexivity. Qed.
Lemma cumsum_ext {V} {N : Num V} (L L' : nat -> V) t : (forall s, s <= t -> L s = L' s) -> cumsum L t = cumsum L' t.
Proof. induction t as [|t IH]; intros H; cbn [cumsum]; rewrite H by lia; [reflexivity|]. rewrite IH; auto. Qed.
Lemma mackay_ext {V} {N : Num V} vsum (L L' : nat -> nat -> V) n k1 k2 : 1 <= k1 ->
  (forall i t, i < n -> t < k2 -> L i t = L' i t) -> id_mackay vsum L n k1 k2 = id_mackay vsum L' n k1 k2.
Proof.
  intros Hk H. unfold id_mackay. do 2 f_equal. apply map_ext_in. intros k Ik. apply in_seq in Ik. do 3 f_equal.
  apply map_ext_in. intros i Ii. apply in_seq in Ii. unfold dhat. rewrite (cumsum_ext (L i) (L' i)) by (intros; apply H; lia).
  rewrite (H i (k - 1)) by lia. reflexivity.
Qed.
Lemma equidistant_logs : forall i t, i < 13 -> t < 12 ->
  id_knn fsum ln1 ref_sort true (id_rows (seq 0 13) equidistant) i t = B754_zero false.
Proof.
  assert (C : forallb (fun i => let l := ref_sort (map (id_dist fsum true (id_rows (seq 0 13) equidistant) i) (seq 0 13)) in
    forallb (fun t => is_zero (nmul half (ln1 (id_valid (nth (t + 1) l nnan))))) (seq 0 12)) (seq 0 13) = true)
    by (vm_compute; reflexivity).
  intros i t Hi Ht. apply is_zero_eq. rewrite forallb_forall in C. specialize (C i ltac:(apply in_seq; lia)). cbv zeta in C.
  rewrite forallb_forall in C. exact (C t ltac:(apply in_seq; lia)).
Qed.
Theorem C134_infinite_estimate : exists v,
  default_dimension fsum ln1 ref_sort (fun X => seq 0 (nrow X)) equidistant = Ok v /\
  nisfin v = false /\ nisnan v = false /\ py_round v = Raise OverflowError.
Proof.
  exists (id_mackay fsum (fun _ _ => B754_zero false) 13 6 12). split.
  - unfold default_dimension, intrinsic_dimension. cbn [guard String.eqb Ascii.eqb Bool.eqb orb negb bind id_trafo nrow equidistant].
    change (Z.of_nat 13) with 13%Z. cbn [Z.ltb Z.leb Z.compare Pos.compare Pos.compare_cont orb guard bind].
    change (Z.to_nat 6) with 6. change (Z.to_nat 12) with 12.
    apply (f_equal (@Ok f64)).
    apply (mackay_ext fsum (id_knn fsum ln1 ref_sort true (id_rows (seq 0 13) equidistant)) _ 13 6 12); [lia|].
    exact equidistant_logs.
  - vm_compute. repeat split.
Qed.

Print Assumptions C134_infinite_estimate.
Print Assumptions C133_round_nearest_even.
Print Assumptions C133_titles.
Print Assumptions C133_report_contents.
Print Assumptions C133_printed_parameters.
Print Assumptions C133_printing_changes_nothing.
Print Assumptions C133_whole_report.
Print Assumptions C134_report_aborts_analysis.
Print Assumptions C134_report_raises.
Print Assumptions C134_nan_coordinate.
