(** Properties of hubness_analysis.py (C41, C62, C63).  The numerical functions
    (exp, log, sum, pow, partition, sort) and mutual_proximity_gaussi,
    mutual_proximity_gammai and intrinsic_dimension are arbitrary. *)
From Coq Require Import String Ascii.
From Coq Require Import ZArith List Arith Lia Bool Permutation.
From Flocq Require Import IEEE754.BinarySingleNaN.
From Verif Require Import Py Num Arr Sort Conc S_Neighbors M_IO M_Hubness M_SNN M_MPEmpiric M_LS M_Dist M_Centering M_GK M_KNN M_Analysis P_F64 P_HubnessMain P_KNN P_Analysis.
Import ListNotations.
Local Open Scope nat_scope.

(** [s] contains no comma *)
Definition no_comma (s : string) : Prop := forall i, String.get i s <> Some ","%char.

(** ** C41: the names of a call are the comma separated parts of its argument *)
Theorem C41_names_split : forall s,
  String.concat "," (split_comma s) = s /\ (forall t, In t (split_comma s) -> no_comma t) /\
  split_comma s <> [].
Proof.
  assert (Q : forall s cur, no_comma cur ->
    String.concat "," (split_comma_aux cur s) = String.append cur s /\
    (forall t, In t (split_comma_aux cur s) -> no_comma t) /\ split_comma_aux cur s <> []).
  { assert (A0 : forall a, String.append a "" = a) by (induction a as [|c a IH]; cbn; congruence).
    assert (A1 : forall a b c, String.append a (String.append b c) = String.append (String.append a b) c)
      by (induction a as [|x a IH]; cbn; congruence).
    assert (NC : forall cur c, no_comma cur -> c <> ","%char -> no_comma (String.append cur (String c ""))).
    { induction cur as [|x cur IH]; intros c Hc Hn i; cbn.
      - destruct i; cbn; [congruence|destruct i; discriminate].
      - destruct i as [|i]; cbn; [exact (Hc 0)|]. apply IH; [intros j; exact (Hc (S j))|assumption]. }
    induction s as [|c s IH]; intros cur Hcur; cbn [split_comma_aux].
    - rewrite A0. repeat split; cbn; [now intros t [<-|[]]|discriminate].
    - destruct (Ascii.eqb_spec c ","%char) as [->|Hc].
      + destruct (IH EmptyString) as (I1 & I2 & I3). { intros i; destruct i; discriminate. }
        repeat split; [|intros t [<-|Ht]; auto|discriminate].
        cbn [append] in I1. destruct (split_comma_aux "" s) as [|t l]; [contradiction|].
        cbn [String.concat]. cbn [String.concat] in I1. now rewrite I1.
      + destruct (IH (String.append cur (String c ""))) as (I1 & I2 & I3); [now apply NC|].
        repeat split; auto. rewrite I1, <- A1. reflexivity. }
  intros s. destruct (Q s EmptyString) as (Q1 & Q2 & Q3). { intros i; destruct i; discriminate. }
  split; [exact Q1|]. now split.
Qed.

Section C41.
  Variables (vexp vln : f64 -> f64) (vsum : list f64 -> f64) (vpow : f64 -> f64 -> f64).
  Variable argpart : list f64 -> list nat -> list nat.
  Variable part : list f64 -> list nat -> list f64.
  Variables (argsort stable : list f64 -> list nat) (sort : list f64 -> list f64).
  Variable cpu : nat.
  Variables (gaussi gammai : arr2 f64 -> string -> result (arr2 f64)) (idim : arr2 f64 -> result f64).
  Let sec_distance := sec_distance vexp vln vsum vpow argpart part cpu gaussi gammai.
  Let exp_run := exp_run vexp vln vsum vpow argpart part argsort stable sort cpu gaussi gammai.
  Let exps_run := exps_run vexp vln vsum vpow argpart part argsort stable sort cpu gaussi gammai.
  Let analyze := analyze vexp vln vsum vpow argpart part argsort stable sort cpu gaussi gammai idim.
  Let history := history vexp vln vsum vpow argpart part argsort stable sort cpu gaussi gammai idim.
  Implicit Types a : analysis (V:=f64).

  (** ** C41: every history of calls.  The stored data never change; each call
      appends one experiment per name, in order, stopping at the first name
      that raises; every experiment is a run on the *original* data. *)
  Theorem C41_history : forall a cs os a', history a cs os a' ->
    (a_D a' = a_D a /\ a_classes a' = a_classes a /\ a_vectors a' = a_vectors a /\ a_metric a' = a_metric a) /\
    exists xss, a_exps a' = a_exps a ++ concat xss /\ length xss = length cs /\ length os = length cs /\
      forall i c xs o, nth_error cs i = Some c -> nth_error xss i = Some xs -> nth_error os i = Some o ->
        map e_type xs = firstn (length xs) (split_comma (c_exps c)) /\
        length xs <= length (split_comma (c_exps c)) /\
        (o = None <-> map e_type xs = split_comma (c_exps c)) /\
        (forall e, o = Some e ->
           (xs = [] /\ exists X, a_vectors a = Some X /\ idim X = Raise e) \/
           exp_run a (nth (length xs) (split_comma (c_exps c)) ""%string) (c_hks c) (c_kks c) (Raise e)) /\
        (forall x, In x xs -> exp_run a (e_type x) (c_hks c) (c_kks c) (Ok x)).
  Proof.
    intros a cs os a' H. induction H as [a|a c cs o os a1 a2 Ha Hh IH].
    - split; [repeat split|]. exists []. cbn. rewrite app_nil_r. repeat split; intros; destruct i; discriminate.
    - destruct IH as ((E1 & E2 & E3 & E4) & xss & EX & L1 & L2 & Hx).
      destruct (analyze_inv _ _ _ _ _ _ _ _ _ _ _ _ _ _ _ _ _ _ _ Ha) as (SD & xs & Exs & Hr).
      pose proof SD as (F1 & F2 & F3 & F4).
      split; [repeat split; congruence|]. exists (xs :: xss). cbn [concat length].
      rewrite EX, Exs, app_assoc. split; [reflexivity|]. split; [lia|]. split; [lia|].
      intros [|i] c' xs' o' Ec Ex Eo; cbn [nth_error] in *.
      + injection Ec as <-. injection Ex as <-. injection Eo as <-.
        destruct Hr as [(-> & X & e & HX1 & HX2 & ->)|(_ & Hr)].
        * cbn. destruct (C41_names_split (c_exps c)) as (_ & _ & NE).
          repeat split; [lia|discriminate|intros HT; now rewrite <- HT in NE| |intros x []].
          intros e' [= <-]. left. split; [reflexivity|]. now exists X.
        * pose proof (exps_run_types _ _ _ _ _ _ _ _ _ _ _ _ _ _ _ _ _ _ Hr) as (T1 & T2 & T3).
          repeat split; auto.
          -- intros ->. rewrite T1. apply firstn_all2. rewrite (proj1 T3 eq_refl). lia.
          -- intros HT. apply T3. rewrite <- HT. now rewrite map_length.
          -- intros e ->. right. exact (exps_run_fail _ _ _ _ _ _ _ _ _ _ _ _ _ _ _ _ _ _ Hr).
          -- intros x Hin. now apply (exps_run_each _ _ _ _ _ _ _ _ _ _ _ _ _ _ _ _ _ _ Hr).
      + destruct (Hx i c' xs' o' Ec Ex Eo) as (T1 & T2 & T3 & T5 & T4). repeat split; try apply T3; auto.
        { intros e Ee. destruct (T5 e Ee) as [(X1 & X & X2 & X3)|X1].
          - left. split; [exact X1|]. exists X. split; [congruence|exact X3].
          - right. now apply (exp_run_data _ _ _ _ _ _ _ _ _ _ _ _ a1). }
        intros x Hin. apply (exp_run_data _ _ _ _ _ _ _ _ _ _ _ _ a1); [exact SD|]. now apply T4.
  Qed.

  (** ** C41: a name that is not supported ends the call with ValueError (an
      earlier name may already have raised something else); what stays are
      experiments for the names before it, all of them if none raised. *)
  Theorem C41_unknown_name : forall a exps hks kks a' o pre bad post,
    nrow (a_D a) = ncol (a_D a) ->
    (forall X, a_vectors a = Some X -> exists v, idim X = Ok v) ->
    split_comma exps = pre ++ bad :: post -> ~ In bad sec_names ->
    analyze a exps hks kks a' o ->
    exists xs, a_exps a' = a_exps a ++ xs /\
      ((map e_type xs = pre /\ o = Some ValueError) \/
       (length xs < length pre /\ map e_type xs = firstn (length xs) pre /\
        exists e, o = Some e /\ exp_run a (nth (length xs) pre ""%string) hks kks (Raise e))).
  Proof.
    intros a exps hks kks a' o pre bad post Hsq Hid Hn Hbad H.
    destruct (analyze_inv _ _ _ _ _ _ _ _ _ _ _ _ _ _ _ _ _ _ _ H) as (_ & xs & Exs & Hr).
    exists xs. split; [exact Exs|].
    destruct Hr as [(_ & X & e & HX & He & _)|(_ & Hr)].
    { destruct (Hid X HX) as (v & Hv). congruence. }
    assert (Hk : known bad = false).
    { unfold known. destruct (existsb (String.eqb bad) sec_names) eqn:E; [|reflexivity].
      apply existsb_exists in E as (z & Hz & Ez). apply String.eqb_eq in Ez. now subst z. }
    rewrite Hn in Hr. clear - Hr Hsq Hk.
    revert xs Hr. induction pre as [|p pre IH]; intros xs Hr; cbn [app] in Hr.
    - inversion Hr as [|n1 n2 e He|n1 n2 x xs' o' Hx Hr']; subst.
      + left. split; [reflexivity|]. now apply exp_run_unknown in He; [injection He as ->|..].
      + now apply exp_run_unknown in Hx.
    - inversion Hr as [|n1 n2 e He|n1 n2 x xs' o' Hx Hr']; subst.
      + right. cbn. repeat split; [lia|]. now exists e.
      + destruct (IH _ Hr') as [(E1 & E2)|(L & E1 & E2)]; rewrite <- (exp_run_type _ _ _ _ _ _ _ _ _ _ _ _ _ _ _ _ _ Hx).
        * left. cbn. now rewrite E1.
        * right. cbn. rewrite E1. repeat split; [lia|]. exact E2.
  Qed.

  (** ** C41: every call has an outcome *)
  Lemma sec_total a name : In name sec_names -> exists r, sec_distance a name r.
  Proof.
    assert (MM : forall r, matrix_method vexp vln vsum argpart part cpu gaussi gammai (a_D a) (a_metric a) name r ->
                 exists r, sec_distance a name r) by (intros r Hr; eexists; apply sd_matrix; exact Hr).
    unfold sec_names.
    intros [<-|[<-|[<-|[<-|[<-|[<-|[<-|[<-|[<-|[<-|[<-|[<-|[]]]]]]]]]]]]].
    - eapply MM. apply mm_mp.
    - eapply MM. apply mm_gaussi.
    - eapply MM. apply mm_gammai.
    - eapply MM. apply mm_ls, ls_one. reflexivity.
    - eapply MM. apply mm_nicdm, ni_one. reflexivity.
    - eapply MM. apply mm_snn.
    - destruct (a_vectors a) as [X|] eqn:EX; eexists; [eapply sd_vector; [exact EX|apply vm_cent]|].
      apply sd_none_attr; [assumption|cbn; tauto].
    - destruct (a_vectors a) as [X|] eqn:EX; eexists; [eapply sd_vector; [exact EX|apply vm_wcent]|].
      apply sd_none_attr; [assumption|cbn; tauto].
    - destruct (a_vectors a) as [X|] eqn:EX; [|eexists; now apply sd_none_type].
      assert (exists r, localized_centering vsum vpow argpart X None 40 n1 cpu 1 r) as (r & Hr).
      { destruct (matmul vsum (unit_rows vsum X) (transpose (unit_rows vsum X))) as [sim|e] eqn:E1.
        2:{ eexists. eapply lc_fail_dot. exact E1. }
        destruct (mapM (local_affinity vsum argpart (unit_rows vsum X) sim 40) (seq 0 (nrow (unit_rows vsum X)))) as [la|e] eqn:E2.
        - eexists. eapply lc_serial; [cbn; lia|exact E1|exact E1|exact E2].
        - eexists. eapply lc_fail; [exact E1|exact E1|exact E2]. }
      eexists. eapply sd_vector; [exact EX|]. apply vm_lcent. exact Hr.
    - destruct (a_vectors a) as [X|] eqn:EX; eexists; [eapply sd_vector; [exact EX|apply vm_dsg]|].
      apply sd_none_attr; [assumption|cbn; tauto].
    - destruct (a_vectors a) as [X|] eqn:EX.
      2:{ eexists. apply sd_none_attr; [assumption|cbn; tauto]. }
      assert (exists r, dis_sim_local vsum argpart X 10 1 None r) as (r & Hr).
      { destruct (euclidean_distances_sq vsum X X) as [D0|e] eqn:E1.
        2:{ eexists. eapply dsl_bad; [exact I|]. cbn. now rewrite E1. }
        destruct (mapM (dsl_nn argpart (fill_diagonal D0 ninf) 10) (seq 0 (nrow (fill_diagonal D0 ninf)))) as [nn|e] eqn:E2.
        - eexists. eapply dsl_self; [exact E1|]. eapply dc_serial; [lia|exact E2].
        - eexists. eapply dsl_self; [exact E1|]. eapply dc_fail. exact E2. }
      eexists. eapply sd_vector; [exact EX|]. apply vm_dsl. exact Hr.
    - eapply MM. apply mm_orig.
  Qed.

  Theorem C41_every_call_ends : forall a exps hks kks, exists a' o, analyze a exps hks kks a' o.
  Proof.
    intros a exps hks kks.
    assert (HL : forall n (Q : arr2 f64) metric ks d, exists r, hub_loop argpart n Q metric ks d r).
    { intros n Q metric ks. induction ks as [|k ks IH]; intros d; [eexists; apply hl_nil|].
      destruct (calc_hubness argpart n Q metric k (fun _ => seq 0 (ncol Q))) as [h|e] eqn:E.
      - destruct (IH (dset k h d)) as (r & Hr). exists r. eapply hl_step; [|exact E|exact Hr]. reflexivity.
      - eexists. eapply hl_raise; [|exact E]. reflexivity. }
    assert (KL : forall (Q : arr2 f64) metric y ks d, exists r, knn_loop argsort Q metric y ks d r).
    { intros Q metric y ks. induction ks as [|k ks IH]; intros d; [eexists; apply kl_nil|].
      destruct (calc_knn argsort Q metric y k (fun _ l => l) (fun _ _ l => l)) as [h|e] eqn:E.
      - destruct (IH (dset k h d)) as (r & Hr). exists r. eapply kl_step; [..|exact E|exact Hr]; reflexivity.
      - eexists. eapply kl_raise; [..|exact E]; reflexivity. }
    assert (ER : forall name, exists r, exp_run a name hks kks r).
    { intros name. destruct (exp_checks a name) as [[]|e] eqn:EC; [|eexists; apply er_checks; exact EC].
      pose proof EC as EC'. apply exp_checks_ok in EC' as (_ & _ & Hk & _).
      assert (Hin : In name sec_names).
      { apply existsb_exists in Hk as (z & Hz & Ez). apply String.eqb_eq in Ez. now subst z. }
      destruct (sec_total a name Hin) as ([Q|e] & HS); [|eexists; apply er_sec; [exact EC|exact HS]].
      destruct (HL (nrow (a_D a)) Q (a_metric a) hks []) as ([h|e] & Hh); [|eexists; eapply er_hub; eassumption].
      destruct (a_classes a) as [y|] eqn:Ey; [|eexists; eapply er_plain; eassumption].
      destruct (KL Q (a_metric a) y kks []) as ([acc|e] & Hk'); [|eexists; eapply er_knn; eassumption].
      destruct (goodman_kruskal_index stable sort Q y (a_metric a)) as [g|e] eqn:Eg; eexists.
      - exact (er_full _ _ _ _ _ _ _ _ _ _ _ _ a name hks kks Q h y acc g EC HS Hh Ey Hk' Eg).
      - exact (er_gk _ _ _ _ _ _ _ _ _ _ _ _ a name hks kks Q h y acc e EC HS Hh Ey Hk' Eg). }
    assert (XR : forall names, exists xs o, exps_run a hks kks names xs o).
    { induction names as [|nm names (xs & o & IH)]; [exists [], None; apply xr_nil|].
      destruct (ER nm) as ([x|e] & Hx).
      - exists (x :: xs), o. now apply xr_step.
      - exists [], (Some e). now apply xr_raise. }
    destruct (XR (split_comma exps)) as (xs & o & Hr).
    destruct (a_vectors a) as [X|] eqn:EX.
    - destruct (idim X) as [v|e] eqn:Ei.
      + eexists _, o. eapply an_run; [|exact Hr]. rewrite EX. now exists v.
      + eexists _, _. eapply an_idim; eassumption.
    - eexists _, o. eapply an_run; [|exact Hr]. now rewrite EX.
  Qed.

  (** ** C41: what an experiment contains.  For each requested k: the k nearest
      neighbour lists of the secondary distances, their occurrence counts, the
      percentage of points that never occur, and the percentage of lists that
      contain the most frequent point.  Accuracy and Goodman-Kruskal index are
      present exactly when there are class labels. *)
  Theorem C41_experiment_contents : argpart_ok argpart ->
    (forall D m Q, gaussi D m = Ok Q -> nrow Q = nrow D /\ ncol Q = ncol D) ->
    (forall D m Q, gammai D m = Ok Q -> nrow Q = nrow D /\ ncol Q = ncol D) ->
    forall a name hks kks x, exp_run a name hks kks (Ok x) ->
    let n := nrow (a_D a) in
    nrow (e_sec x) = n /\ ncol (e_sec x) = n /\
    (forall k, ~ In k hks -> dget k (e_hub x) = None) /\
    (forall k : nat, In (Z.of_nat k) hks -> exists h, dget (Z.of_nat k) (e_hub x) = Some h /\
       length (out_Dk (h_out h)) = n /\
       (forall i, i < n ->
          knn_list (fun u v => nearer (a_metric a) (eff (a_metric a) (e_sec x) i u) (eff (a_metric a) (e_sec x) i v))
                   n (Nat.min k (n - 1)) (nth i (out_Dk (h_out h)) [])) /\
       exists occ : nat -> nat,
         (forall j, j < n -> occ j = length (filter (fun r => existsb (Nat.eqb j) r) (out_Dk (h_out h)))) /\
         h_anti h = ndiv (nofnat (100 * length (filter (fun j => occ j =? 0) (seq 0 n)))) (nofnat n) /\
         exists j, j < n /\ (forall j', j' < n -> occ j' <= occ j) /\
           h_max h = ndiv (nofnat (100 * occ j)) (nofnat n)) /\
    (a_classes a = None <-> e_gk x = None) /\ (a_classes a = None -> e_knn x = []).
  Proof.
    intros AP G1 G2 a name hks kks x H n.
    destruct (exp_run_parts _ _ _ _ _ _ _ _ _ _ _ _ _ _ _ _ _ H) as (HC & HS & HH & HK).
    apply exp_checks_ok in HC as (Hsq & Hm & _ & _ & HX).
    assert (SH : nrow (e_sec x) = n /\ ncol (e_sec x) = n).
    { remember (Ok (e_sec x)) as r eqn:Er. destruct HS as [r Hr|X r EX Hr| |]; try discriminate.
      - assert (Er' : r = Ok (e_sec x)). { destruct r as [|[]]; cbn in Er; congruence. }
        rewrite Er' in Hr. now apply (matrix_method_shape _ _ _ _ _ _ _ _ _ _ _ _ G1 G2 Hsq Hr).
      - subst r. apply vector_method_shape in Hr. rewrite (HX X EX) in Hr. exact Hr. }
    destruct SH as (S1 & S2).
    pose proof (hub_loop_ok _ _ _ _ _ _ _ HH) as HL.
    repeat split; auto.
    - intros k Hk. now apply (HL k).
    - intros k Hk. destruct (proj1 (HL (Z.of_nat k)) Hk) as (h & rps & Hd & Hp & Hc).
      exists h. split; [exact Hd|].
      apply calc_hubness_inv in Hc as (Hs & Hpos & Ha & Hmx).
      destruct (serial_conserved argpart AP false (e_sec x) k (a_metric a) true rps (h_out h)) as (C1 & C2 & C3 & C4);
        [intros i _; apply Hp|exact Hs|].
      assert (Hn0 : 0 < n) by (rewrite C1, S2 in Hpos; exact Hpos).
      destruct (serial_knn f64_cmp argpart AP false (e_sec x) k (a_metric a) true rps) as (o & Eo & L & _ & KN); auto.
      { now rewrite S2. } { left. congruence. } { intros i _. apply Hp. }
      rewrite Hs in Eo. injection Eo as <-. rewrite S1 in L, KN. rewrite S2 in C1, C4, KN.
      split; [exact L|]. split; [exact KN|].
      exists (fun j => nth j (out_Nk (h_out h)) 0). split; [exact C4|]. split.
      + rewrite Ha, C1. reflexivity.
      + assert (NE : out_Nk (h_out h) <> []) by (intros E; rewrite E in Hpos; cbn in Hpos; lia).
        destruct (In_nth _ _ 0 (max_list_in _ NE)) as (j & Hj & Ej). rewrite C1 in Hj. exists j.
        split; [exact Hj|]. rewrite Ej. split; [|exact Hmx].
        intros j' Hj'. apply max_list_le, nth_In. now rewrite C1.
    - intros E. rewrite E in HK. apply HK.
    - intros E. destruct (a_classes a); [|reflexivity]. destruct HK as (_ & g & _ & Eg). congruence.
    - intros E. rewrite E in HK. apply HK.
  Qed.

  (** ** C62 DEFECT: methods that need the vectors, on an analysis without
      vectors, never report the missing vectors as such: they always end with
      AttributeError or TypeError from the inside of the method. *)
  Theorem C62_vector_methods_without_vectors : forall a hks kks r,
    a_vectors a = None -> nrow (a_D a) = ncol (a_D a) -> valid_metric (a_metric a) = true ->
    (forall y, a_classes a = Some y -> length y = nrow (a_D a)) ->
    (forall name, In name ["cent"; "wcent"; "dsg"; "dsl"]%string -> exp_run a name hks kks r -> r = Raise AttributeError) /\
    (exp_run a "lcent" hks kks r -> r = Raise TypeError).
  Proof.
    intros a hks kks r HV Hsq Hm Hy.
    assert (CK : forall name, known name = true -> exp_checks a name = Ok tt).
    { intros name Hk. apply exp_checks_ok. repeat split; auto. intros X HX. congruence. }
    assert (SD : forall name e0, known name = true -> (forall r', sec_distance a name r' -> r' = Raise e0) ->
                 exp_run a name hks kks r -> r = Raise e0).
    { intros name e0 Hk HS Hr. specialize (CK name Hk). destruct Hr; try congruence;
        match goal with A : M_Analysis.sec_distance _ _ _ _ _ _ _ _ _ _ _ _ |- _ => apply HS in A; congruence end. }
    split.
    - intros name Hin. apply SD.
      + destruct Hin as [<-|[<-|[<-|[<-|[]]]]]; reflexivity.
      + intros r' Hr'. destruct Hr' as [r0 H0|X r0 EX _|_ _|_ ->]; [|congruence|reflexivity|].
        * exfalso. destruct H0; cbn in Hin; intuition discriminate.
        * cbn in Hin. intuition discriminate.
    - apply SD; [reflexivity|].
      intros r' Hr'. remember "lcent"%string as nm. destruct Hr' as [r0 H0|X r0 EX _|_ Hin|_ _]; [|congruence| |reflexivity].
      + destruct H0; discriminate.
      + subst. cbn in Hin. intuition discriminate.
  Qed.

  (** ** C62 DEFECT: so the default analysis of a distance matrix always raises,
      and keeps at most the experiments orig, mp, mp_gaussi and nicdm *)
  Theorem C62_default_analysis_raises : forall a hks kks a' o,
    a_vectors a = None -> nrow (a_D a) = ncol (a_D a) -> valid_metric (a_metric a) = true ->
    (forall y, a_classes a = Some y -> length y = nrow (a_D a)) ->
    analyze a default_experiments hks kks a' o ->
    exists e xs, o = Some e /\ a_exps a' = a_exps a ++ xs /\
      map e_type xs = firstn (length xs) ["orig"; "mp"; "mp_gaussi"; "nicdm"]%string /\
      (length xs = 4 -> e = AttributeError).
  Proof.
    intros a hks kks a' o HV Hsq Hm Hy H.
    destruct (analyze_inv _ _ _ _ _ _ _ _ _ _ _ _ _ _ _ _ _ _ _ H) as (_ & xs & Exs & Hr).
    destruct Hr as [(_ & X & e & HX & _)|(_ & Hr)]; [congruence|].
    change (split_comma default_experiments) with ["orig"; "mp"; "mp_gaussi"; "nicdm"; "cent"; "dsg"]%string in Hr.
    assert (HC : forall r, exp_run a "cent" hks kks r -> r = Raise AttributeError).
    { intros r Hr0. apply (proj1 (C62_vector_methods_without_vectors a hks kks r HV Hsq Hm Hy) "cent"%string); [cbn; tauto|exact Hr0]. }
    cut (exists e, o = Some e /\ map e_type xs = firstn (length xs) ["orig"; "mp"; "mp_gaussi"; "nicdm"]%string /\
      (length xs = 4 -> e = AttributeError)).
    { intros (e & ? & ?). exists e, xs. tauto. }
    clear - Hr HC.
    repeat match goal with
    | Hr : M_Analysis.exps_run _ _ _ _ _ _ _ _ _ _ _ _ _ _ _ ("cent"%string :: _) _ _ |- _ =>
        let e0 := fresh "e" in let He := fresh "He" in let Hx := fresh "Hx" in let Hr' := fresh "Hr" in
        inversion Hr as [|? ? e0 He|? ? ? ? ? Hx Hr']; subst; clear Hr;
        [apply HC in He; injection He as ->; exists AttributeError|apply HC in Hx; discriminate]
    | Hr : M_Analysis.exps_run _ _ _ _ _ _ _ _ _ _ _ _ _ _ _ (?n :: _) _ _ |- _ =>
        let e0 := fresh "e" in let He := fresh "He" in let Hx := fresh "Hx" in let Hr' := fresh "Hr" in
        inversion Hr as [|? ? e0 He|? ? ? ? ? Hx Hr']; subst; clear Hr;
        [exists e0|apply exp_run_type in Hx]
    end; cbn; repeat split; try congruence; try discriminate.
  Qed.

  (** ** C63 DEFECT: on a *similarity* matrix with vectors, the vector based
      methods produce dissimilarities, but the experiment treats them as
      similarities: its neighbour lists hold the most dissimilar points. *)
  Theorem C63_similarity_analysis_inverts_vector_methods : argpart_ok argpart ->
    forall a name hks kks x X,
    a_metric a = "similarity"%string -> a_vectors a = Some X ->
    In name ["cent"; "wcent"; "lcent"; "dsg"; "dsl"]%string ->
    exp_run a name hks kks (Ok x) ->
    vector_method vsum vpow argpart cpu X name (Ok (e_sec x)) /\
    forall k : nat, In (Z.of_nat k) hks -> exists h, dget (Z.of_nat k) (e_hub x) = Some h /\
      length (out_Dk (h_out h)) = nrow X /\
      forall i, i < nrow X ->
        length (nth i (out_Dk (h_out h)) []) = Nat.min k (nrow X - 1) /\
        forall u v, In u (nth i (out_Dk (h_out h)) []) -> v < nrow X -> ~ In v (nth i (out_Dk (h_out h)) []) ->
          u <> i -> v <> i ->
          nisfin (at2 (e_sec x) i u) = true -> nisfin (at2 (e_sec x) i v) = true ->
          nlt (at2 (e_sec x) i u) (at2 (e_sec x) i v) = false.
  Proof.
    intros AP a name hks kks x X Hm HV Hin H.
    destruct (exp_run_parts _ _ _ _ _ _ _ _ _ _ _ _ _ _ _ _ _ H) as (HC & HS & HH & HK).
    apply exp_checks_ok in HC as (Hsq & Hvm & _ & _ & HX). specialize (HX X HV).
    assert (VM : vector_method vsum vpow argpart cpu X name (Ok (e_sec x))).
    { remember (Ok (e_sec x)) as r eqn:Er. destruct HS as [r Hr|X' r EX Hr|E|E]; try congruence.
      destruct Hr; cbn in Hin; intuition discriminate. }
    split; [exact VM|]. destruct (vector_method_shape _ _ _ _ _ _ _ VM) as (S1 & S2).
    pose proof (hub_loop_ok _ _ _ _ _ _ _ HH) as HL.
    intros k Hk. destruct (proj1 (HL (Z.of_nat k)) Hk) as (h & rps & Hd & Hp & Hc).
    exists h. split; [exact Hd|]. apply calc_hubness_inv in Hc as (Hs & Hpos & _ & _).
    destruct (serial_conserved argpart AP false (e_sec x) k (a_metric a) true rps (h_out h)) as (C1 & _);
      [intros i _; apply Hp|exact Hs|].
    destruct (serial_knn f64_cmp argpart AP false (e_sec x) k (a_metric a) true rps) as (o & Eo & L & _ & KN); auto.
    { lia. } { left. congruence. } { intros i _. apply Hp. }
    rewrite Hs in Eo. injection Eo as <-. rewrite S1 in L, KN. rewrite S2 in KN.
    split; [exact L|]. intros i Hi. specialize (KN i Hi). split; [exact (knn_len _ _ _ _ KN)|].
    intros u v Hu Hv Hnv Hui Hvi Fu Fv.
    pose proof (knn_best _ _ _ _ KN v u Hv Hnv Hu) as B. unfold nearer, eff, usable in B.
    rewrite Hm, S1, S2, Nat.eqb_refl, Fu, Fv in B. cbn in B.
    destruct (Nat.eqb_spec v i); [contradiction|]. destruct (Nat.eqb_spec u i); [contradiction|]. exact B.
  Qed.
End C41.
Print Assumptions C41_names_split.
Print Assumptions C41_history.
Print Assumptions C41_unknown_name.
Print Assumptions C41_every_call_ends.
Print Assumptions C41_experiment_contents.
Print Assumptions C62_vector_methods_without_vectors.
Print Assumptions C62_default_analysis_raises.
Print Assumptions C63_similarity_analysis_inverts_vector_methods.

(* ------------------------------------------------------------------ *)
(** ** concrete cases *)
Definition z64 (z : Z) : f64 := nofZ z.
Definition exa (y : option (list Z)) (X : option (arr2 f64)) (metric : string) : analysis :=
  new_analysis (Arr2 3 3 (fun i j => z64 (nth (i * 3 + j) [0;1;10; 1;0;9; 10;9;0]%Z 0%Z))) y X metric.
Definition exX : arr2 f64 := Arr2 3 1 (fun i _ => z64 (nth i [0;1;10]%Z 0%Z)).
Definition fsum (l : list f64) : f64 := fold_left nadd l n0.

Lemma ex_rps : forall n (i : nat), Permutation ((fun _ => seq 0 n) i) (seq 0 n).
Proof. reflexivity. Qed.

(** an experiment without labels exists whenever the loop over k succeeds *)
Lemma ex_loop (Q : arr2 f64) metric : valid_metric metric = true -> 0 < ncol Q -> nrow Q = ncol Q ->
  exists d, hub_loop ref_argpart (nrow Q) Q metric [1%Z] [] (Ok d).
Proof.
  intros Hv Hc Hsq.
  destruct (serial_knn f64_cmp ref_argpart (ref_argpart_ok f64_cmp) false Q 1 metric true (fun _ => seq 0 (ncol Q)))
    as (o & E & _ & EN & _); auto. { intros i _. reflexivity. }
  assert (L : length (out_Nk o) <> 0).
  { destruct (serial_conserved ref_argpart (ref_argpart_ok f64_cmp) false Q 1 metric true (fun _ => seq 0 (ncol Q)) o) as (L & _).
    - intros i _. reflexivity.
    - exact E.
    - rewrite L. lia. }
  eexists. eapply hl_step; [apply ex_rps| |apply hl_nil].
  unfold calc_hubness. cbn [Z.of_nat Pos.of_succ_nat] in E. rewrite E. cbn [bind].
  destruct (Nat.eqb_spec (length (out_Nk o)) 0); [contradiction|]. reflexivity.
Qed.

Section Ex.
  Variables (vexp vln : f64 -> f64) (vpow : f64 -> f64 -> f64).
  Variable part : list f64 -> list nat -> list f64.
  Variables (argsort stable : list f64 -> list nat) (sort : list f64 -> list f64).
  Variables (gaussi gammai : arr2 f64 -> string -> result (arr2 f64)).

  (** C41: two calls, the second one with an unknown name *)
  Example ex_history : exists a',
    history vexp vln fsum vpow ref_argpart part argsort stable sort 4 gaussi gammai (fun _ => Ok n0)
      (exa None None "distance")
      [Call "orig,mp" [1%Z] []; Call "orig,foo,mp" [1%Z] []] [None; Some ValueError] a' /\
    map e_type (a_exps a') = ["orig"; "mp"; "orig"]%string.
  Proof.
    destruct (ex_loop (a_D (exa None None "distance")) "distance") as (d & Hd); [reflexivity|cbn; lia|reflexivity|].
    destruct (ex_loop (mp_full_core "distance" (a_D (exa None None "distance"))) "distance") as (d2 & Hd2);
      [reflexivity|cbn; lia|reflexivity|].
    assert (O : forall xs, exp_run vexp vln fsum vpow ref_argpart part argsort stable sort 4 gaussi gammai
      (Ana (a_D (exa None None "distance")) None None "distance" xs) "orig" [1%Z] []
      (Ok (Exp "orig" (a_D (exa None None "distance")) d [] None))).
    { intros xs. apply er_plain; [reflexivity| |exact Hd|reflexivity].
      exact (sd_matrix _ _ _ _ _ _ _ _ _ (Ana (a_D (exa None None "distance")) None None "distance" xs) "orig"%string _
               (mm_orig _ _ _ _ _ _ _ _ _ _)). }
    eexists. split.
    - eapply hi_call.
      { eapply an_run; [exact I|]. cbn. eapply xr_step; [apply (O [])|]. eapply xr_step; [|apply xr_nil].
        apply er_plain with (S := mp_full_core "distance" (a_D (exa None None "distance")));
          [reflexivity| |exact Hd2|reflexivity].
        exact (sd_matrix _ _ _ _ _ _ _ _ _ (exa None None "distance") "mp"%string _ (mm_mp _ _ _ _ _ _ _ _ _ _)). }
      eapply hi_call; [|apply hi_nil].
      eapply an_run; [exact I|]. eapply xr_step; [apply O|]. apply xr_raise. apply er_checks. reflexivity.
    - reflexivity.
  Qed.

  (** C62: the hypotheses on the analysis hold for [exa None None "distance"] *)
  Example ex_C62 : a_vectors (exa (Some [1;1;2]%Z) None "distance") = None /\
    valid_metric (a_metric (exa (Some [1;1;2]%Z) None "distance")) = true /\
    nrow (a_D (exa (Some [1;1;2]%Z) None "distance")) = ncol (a_D (exa (Some [1;1;2]%Z) None "distance")) /\
    (forall y, a_classes (exa (Some [1;1;2]%Z) None "distance") = Some y -> length y = 3).
  Proof. repeat split. intros y [= <-]. reflexivity. Qed.

  (** C63: a successful experiment with DisSim global on a similarity matrix *)
  Example ex_C63 : exists Q d, dis_sim_global fsum exX None = Ok Q /\
    exp_run vexp vln fsum vpow ref_argpart part argsort stable sort 4 gaussi gammai
      (exa None (Some exX) "similarity") "dsg" [1%Z] [] (Ok (Exp "dsg" Q d [] None)).
  Proof.
    destruct (dis_sim_global fsum exX None) as [Q|] eqn:E.
    2:{ exfalso. assert (C : match dis_sim_global fsum exX None with Ok _ => true | _ => false end = true)
          by (vm_compute; reflexivity). rewrite E in C. discriminate. }
    destruct (vector_method_shape fsum vpow ref_argpart 4 exX "dsg" Q) as (S1 & S2).
    { rewrite <- E. apply vm_dsg. }
    change (nrow exX) with 3 in S1, S2.
    destruct (ex_loop Q "similarity") as (d & Hd); [reflexivity|lia|lia|].
    exists Q, d. split; [reflexivity|]. apply er_plain; [reflexivity| |rewrite S1 in Hd; exact Hd|reflexivity].
    apply sd_vector with exX; [reflexivity|]. rewrite <- E. apply vm_dsg.
  Qed.
End Ex.

(** C63 witness: points 0, 1, 10 on a line.  With metric 'distance' the
    neighbour of point 0 is point 1; with metric 'similarity' it is point 2. *)
Definition exlists (metric : string) : list (list nat) :=
  match dis_sim_global fsum exX None with
  | Ok Q => match calc_hubness ref_argpart 3 Q metric 1 (fun _ => seq 0 3) with
            | Ok h => out_Dk (h_out h) | Raise _ => [] end
  | Raise _ => [] end.
Example C63_witness : exlists "distance" = [[1]; [0]; [1]] /\ exlists "similarity" = [[2]; [2]; [0]].
Proof. split; vm_compute; reflexivity. Qed.
