(** Property C154: the parameters of the approximate estimator. *)
From Coq Require Import String Ascii.
From Coq Require Import ZArith List Arith Lia Bool Permutation Reals Lra.
From Verif Require Import Py Num NumT Arr Sort M_HubnessClass M_Approx M_ApproxPredict M_ApproxWeights M_Lifecycle M_Params
  M_Dist S_ApproxInit S_ApproxPredict S_ApproxWeights S_Params P_ApproxWeights Properties_ApproxInit Properties_ApproxWeights.
Import ListNotations.
Local Open Scope nat_scope.
Local Open Scope py_scope.

(** the constructor is the one of C74 *)
Lemma construct_init cpu lsh hnsw hr k ns samp metric pred rs jobs verb kw :
  construct cpu lsh hnsw (Params hr (Some k) (Some ns) samp metric pred rs jobs verb kw) =
  (let* q := suqhr_init hr k ns samp metric pred jobs verb cpu lsh hnsw in
   Ok (Params (q_hr q) (Some k) (Some ns) (q_samp q) metric pred rs (q_jobs q) verb kw)).
Proof.
  unfold construct, suqhr_init. cbn [a_hr a_k a_ns a_samp a_metric a_pred a_rs a_jobs a_verb a_kw at_least_one].
  destruct hr as [h|]; [destruct (String.eqb (upper h) "NONE"); [|destruct (mem_str (upper h) valid_hr)]|]; cbn [bind negb]; try reflexivity;
  (destruct (k <? 1)%Z; [reflexivity|]; cbn [guard bind]; destruct (ns <? 1)%Z; [reflexivity|]; cbn [guard bind];
   match goal with |- bind ?S _ = _ => destruct S as [s|]; cbn [bind]; [|reflexivity] end;
   destruct (negb (mem_str metric _)); [reflexivity|]; cbn [guard bind]; destruct (negb (String.eqb pred _)); [reflexivity|]; cbn [guard bind];
   match goal with |- bind ?S _ = _ => destruct S as [j|]; cbn [bind]; [|reflexivity] end;
   destruct (verb <? 0)%Z; reflexivity).
Qed.

Lemma upper_idem s : upper (upper s) = upper s.
Proof.
  apply upper_iff. induction s as [|c s IH]; cbn; [exact I|]. split; [|exact IH].
  apply (letter_of upper_ascii upper_letter_b).
  assert (H : forallb (fun c => Ascii.eqb (upper_ascii (upper_ascii c)) (upper_ascii c)) all_ascii = true) by (vm_compute; reflexivity).
  rewrite forallb_forall in H. apply Ascii.eqb_eq, H, all_ascii_in.
Qed.
Lemma lower_idem s : lower (lower s) = lower s.
Proof.
  apply lower_iff. induction s as [|c s IH]; cbn; [exact I|]. split; [|exact IH].
  apply (letter_of lower_ascii lower_letter_b).
  assert (H : forallb (fun c => Ascii.eqb (lower_ascii (lower_ascii c)) (lower_ascii c)) all_ascii = true) by (vm_compute; reflexivity).
  rewrite forallb_forall in H. apply Ascii.eqb_eq, H, all_ascii_in.
Qed.

Lemma bind_ok {A B} (r : result A) (f : A -> result B) b : bind r f = Ok b -> exists a, r = Ok a /\ f a = Ok b.
Proof. destruct r as [a|e]; [intros H; now exists a|discriminate]. Qed.

(** what a constructed object looks like *)
Lemma construct_inv cpu lsh hnsw a o : construct cpu lsh hnsw a = Ok o ->
  (forall o', same_named o o' -> a_kw o' = [] -> 1 <= cpu -> construct cpu lsh hnsw o' = Ok o') /\
  a_k o = a_k a /\ a_ns o = a_ns a /\ a_metric o = a_metric a /\ a_pred o = a_pred a /\ a_rs o = a_rs a /\ a_verb o = a_verb a /\ a_kw o = a_kw a.
Proof.
  unfold construct. intros H. apply bind_ok in H as (hr & Ehr & H). apply bind_ok in H as ([] & Ek & H).
  apply bind_ok in H as ([] & Ens & H). apply bind_ok in H as (samp & Esamp & H). apply bind_ok in H as ([] & Em & H).
  apply bind_ok in H as ([] & Ep & H). apply bind_ok in H as (j & Ej & H). apply bind_ok in H as ([] & Ev & H).
  injection H as <-. split; [|repeat split].
  intros [hr' k' ns' samp' me' pr' rs' j' v' kw'] (H1 & H2 & H3 & H4 & H5 & H6 & H7 & H8 & H9) HK HC.
  cbn [a_hr a_k a_ns a_samp a_metric a_pred a_rs a_jobs a_verb a_kw] in H1, H2, H3, H4, H5, H6, H7, H8, H9, HK |- *. subst hr' k' ns' samp' me' pr' rs' j' v' kw'.
  assert (A : match hr with None => Ok None | Some h => if String.eqb (upper h) "NONE" then Ok None
                else if negb (mem_str (upper h) valid_hr) then Raise ValueError else Ok (Some (upper h)) end = Ok hr).
  { destruct (a_hr a) as [h|]; [|injection Ehr as <-; reflexivity]. revert Ehr.
    destruct (String.eqb (upper h) "NONE") eqn:E1; [intros Ehr; injection Ehr as <-; reflexivity|].
    destruct (mem_str (upper h) valid_hr) eqn:E2; cbn [negb]; [|discriminate]. intros Ehr. injection Ehr as <-.
    rewrite upper_idem, E1, E2. reflexivity. }
  rewrite A. cbn [bind]. rewrite Ek, Ens. cbn [bind].
  assert (B : match samp with None => Ok None | Some s => if String.eqb (lower s) "none" then Ok None
                else if negb (mem_str (lower s) valid_sample) then Raise ValueError
                else if String.eqb (lower s) "lsh" && negb lsh then Raise ImportError
                else if String.eqb (lower s) "hnsw" && negb hnsw then Raise ImportError else Ok (Some (lower s)) end = Ok samp).
  { destruct (a_samp a) as [s|]; [|injection Esamp as <-; reflexivity]. revert Esamp.
    destruct (String.eqb (lower s) "none") eqn:E1; [intros Esamp; injection Esamp as <-; reflexivity|].
    destruct (mem_str (lower s) valid_sample) eqn:E2; cbn [negb]; [|discriminate].
    destruct (String.eqb (lower s) "lsh" && negb lsh) eqn:E3; [discriminate|].
    destruct (String.eqb (lower s) "hnsw" && negb hnsw) eqn:E4; [discriminate|]. intros Esamp. injection Esamp as <-.
    rewrite lower_idem, E1, E2, E3, E4. reflexivity. }
  rewrite B. cbn [bind]. rewrite Em, Ep. cbn [bind].
  assert (C : (if (j =? -1)%Z then Ok (Z.of_nat cpu) else guard ((j <? -1) || (j =? 0))%Z ValueError ;; Ok j) = Ok j).
  { destruct (Z.eqb_spec (a_jobs a) (-1)).
    - injection Ej as <-. destruct (Z.eqb_spec (Z.of_nat cpu) (-1)); [lia|].
      destruct (Z.ltb_spec (Z.of_nat cpu) (-1)); [lia|]. destruct (Z.eqb_spec (Z.of_nat cpu) 0); [lia|]. reflexivity.
    - destruct ((a_jobs a <? -1) || (a_jobs a =? 0))%Z eqn:E; [discriminate|]. injection Ej as <-.
      apply Z.eqb_neq in n. rewrite n, E. reflexivity. }
  rewrite C. cbn [bind]. rewrite Ev. reflexivity.
Qed.

(** ** (1) an object can be rebuilt from its parameters; the keyword options are lost *)
Theorem C154_rebuild : forall cpu lsh hnsw a o, 1 <= cpu -> construct cpu lsh hnsw a = Ok o ->
  exists o', rebuild cpu lsh hnsw o = Ok o' /\ same_named o o' /\ a_kw o' = [] /\ a_kw o = a_kw a.
Proof.
  intros cpu lsh hnsw a o HC H. destruct (construct_inv _ _ _ _ _ H) as (R & E). exists (get_params o).
  assert (S : same_named o (get_params o)) by (unfold same_named, get_params; cbn; repeat split).
  split; [apply R; auto|]. split; [exact S|]. split; [reflexivity|]. apply E.
Qed.

(** ** (2) so the copy votes with five neighbours, whatever the original was told *)
Theorem C154_copy_predicts_otherwise : forall cpu lsh hnsw a o o' K, 1 <= cpu -> construct cpu lsh hnsw a = Ok o -> rebuild cpu lsh hnsw o = Ok o' ->
  option_value "knn__n_neighbors" a = Some (Z.of_nat K) -> 1 <= K ->
  forall argpart argsort, argpart_ok argpart -> argsort_ok argsort ->
  forall (D : arr2 xr) ys, 0 < nrow D -> 0 < ncol D -> ys <> [] -> (forall y, In y ys -> length y = ncol D) ->
    (K <= ncol D -> exists pred, predict_fixed_w xsum argpart argsort WUniform (voters o) D ys = Ok pred /\
       weighted_rule WUniform K (fun o _ p => nth p (nth o ys []) 0%Z) (length ys) D pred) /\
    (ncol D < 5 -> predict_fixed_w xsum argpart argsort WUniform (voters o') D ys = Raise ValueError) /\
    (5 <= ncol D -> exists pred, predict_fixed_w xsum argpart argsort WUniform (voters o') D ys = Ok pred /\
       weighted_rule WUniform 5 (fun o _ p => nth p (nth o ys []) 0%Z) (length ys) D pred).
Proof.
  intros cpu lsh hnsw a o o' K HC H H' HO HK argpart argsort AP AS D ys Hr Hc Hy HL.
  assert (Vo : voters o = Some K).
  { unfold voters, option_value in *. destruct (construct_inv _ _ _ _ _ H) as (_ & _ & _ & _ & _ & _ & _ & ->). rewrite HO. cbn. now rewrite Nat2Z.id. }
  assert (Vo' : voters o' = None).
  { destruct (C154_rebuild _ _ _ _ _ HC H) as (o2 & E2 & _ & Kw & _). rewrite H' in E2. injection E2 as <-. unfold voters, option_value. now rewrite Kw. }
  assert (H15 : 1 <= 5) by lia.
  rewrite Vo, Vo'. split; [|split].
  - intros C. apply (C153_fixed argpart argsort AP AS WUniform (Some K) D ys HK Hr Hc HL). exact C.
  - intros C. apply (C153_fixed argpart argsort AP AS WUniform None D ys H15 Hr Hc HL); [exact C|exact Hy].
  - intros C. apply (C153_fixed argpart argsort AP AS WUniform None D ys H15 Hr Hc HL). exact C.
Qed.

(** ** (3) fit changes a parameter *)
(** the object with parameters [o] runs with the settings [P] and sample size [ns] (M_Lifecycle.v) *)
Definition runs_as (o : params) (P : par) (ns : nat) : Prop :=
  p_hr P = a_hr o /\ a_ns o = Some (Z.of_nat ns) /\ Some (p_metric P) = Some (a_metric o) /\ a_k o = Some (Z.of_nat (p_k P)) /\ p_jobs P = a_jobs o /\
  a_samp o = match p_kind P with KNone => None | KRandom => Some "random" | KKmeans => Some "kmeans++" end%string.

Section Fit.
  Context {V : Type} {N : Num V}.
  Variables (vsum : list V -> V) (sdist : string -> nat -> (nat -> V) -> (nat -> V) -> V) (vexp : V -> V) (vsf : V -> V -> V -> V).
  Variables (vstore : f64 -> V) (part : list V -> list nat -> list V) (argpart : list V -> list nat -> list nat).

  Lemma fit_runs o P ns n : runs_as o P ns -> runs_as (after_fit n o) P (fit_ns P ns n) /\ same_but_samples o (after_fit n o).
  Proof.
    intros (H1 & H2 & H3 & H4 & H5 & H6). unfold after_fit, fit_ns, hr_is, runs_as, same_but_samples. rewrite H6, H1.
    destruct (p_kind P) eqn:KP; [|rewrite ?H1, ?H6; repeat split; auto ..].
    destruct (a_hr o) as [h|] eqn:Eh; [|cbn [orb]; rewrite ?H1, ?H6; repeat split; auto; congruence].
    destruct (String.eqb (upper h) "MP" || String.eqb (upper h) "MPG"); cbn; rewrite ?H6; repeat split; auto; try congruence.
  Qed.

  Theorem C154_fit_changes_n_samples : forall cpu lsh hnsw a o P, construct cpu lsh hnsw a = Ok o ->
    forall s ind (X : arr2 V) y s', runs_as o P (e_ns s) ->
    do_fit vsum sdist part argpart P s ind X y s' (Done tt) ->
    runs_as (after_fit (nrow X) o) P (e_ns s') /\ same_but_samples o (after_fit (nrow X) o) /\
    (a_samp o = None /\ (a_hr o = Some "MP" \/ a_hr o = Some "MPG")%string -> a_ns (after_fit (nrow X) o) = Some (Z.of_nat (nrow X))) /\
    (~ (a_samp o = None /\ (a_hr o = Some "MP" \/ a_hr o = Some "MPG")%string) -> after_fit (nrow X) o = o).
  Proof.
    intros cpu lsh hnsw a o P HC s ind X y s' R F. destruct (fit_runs o P (e_ns s) (nrow X) R) as (A & B).
    split; [inversion F; subst; exact A|]. split; [exact B|].
    assert (U : forall h, a_hr o = Some h -> upper h = h).
    { intros h Eh. unfold construct in HC. apply bind_ok in HC as (hr & Ehr & H). repeat (apply bind_ok in H as (? & ? & H)).
      injection H as <-. cbn [a_hr] in Eh. subst hr. destruct (a_hr a) as [h0|]; [|discriminate]. revert Ehr.
      destruct (String.eqb (upper h0) "NONE"); [discriminate|]. destruct (mem_str (upper h0) valid_hr); cbn [negb]; [|discriminate].
      intros E. injection E as <-. apply upper_idem. }
    unfold after_fit. split.
    - intros (E & [Eh|Eh]); rewrite E, Eh; reflexivity.
    - intros Hn. destruct (a_samp o) eqn:E; [reflexivity|]. destruct (a_hr o) as [h|] eqn:Eh; [|reflexivity].
      rewrite (U h eq_refl). destruct (String.eqb_spec h "MP"); [exfalso; apply Hn; subst; auto|].
      destruct (String.eqb_spec h "MPG"); [exfalso; apply Hn; subst; auto|]. reflexivity.
  Qed.

  (** an object used once without sampling and then switched to random sampling
      refuses all data that are not larger than the first, although the number of
      samples it was constructed with would do *)
  Theorem C154_switch_to_sampling_fails : forall cpu lsh hnsw a o P ns, construct cpu lsh hnsw a = Ok o ->
    a_samp o = None -> a_hr o = Some "MP"%string -> runs_as o P ns ->
    forall ind1 (X1 : arr2 V) y1 s1, do_fit vsum sdist part argpart P (fresh ns) ind1 X1 y1 s1 (Done tt) ->
    exists o2, set_param (after_fit (nrow X1) o) (SetSamp (Some "random"%string)) = Ok o2 /\
    forall P2, runs_as o2 P2 (e_ns s1) ->
    forall ind (X : arr2 V) y, check_array X = Ok tt -> ns < nrow X <= nrow X1 ->
      (forall s' out, do_fit vsum sdist part argpart P2 s1 ind X y s' out -> out = Failed ValueError) /\
      (exists s', do_fit vsum sdist part argpart P2 (fresh ns) ind X y s' (Done tt)).
  Proof.
    intros cpu lsh hnsw a o P ns HC Hs Hh R ind1 X1 y1 s1 F1. exists (match set_param (after_fit (nrow X1) o) (SetSamp (Some "random"%string)) with Ok q => q | _ => o end).
    split; [destruct (after_fit (nrow X1) o); reflexivity|]. intros P2 R2 ind X y CX Hn.
    destruct (C154_fit_changes_n_samples _ _ _ _ _ _ HC (fresh ns) ind1 X1 y1 s1 R F1) as ((_ & N1 & _) & _ & Q & _). rewrite Q in N1 by auto. injection N1 as N1. apply Nat2Z.inj in N1.
    assert (K2 : p_kind P2 = KRandom /\ p_hr P2 = Some "MP"%string).
    { destruct R2 as (A & _ & _ & _ & _ & B). unfold after_fit in A, B. rewrite Hs, Hh in A, B. cbn in A, B. rewrite A. split; [|reflexivity].
      destruct (p_kind P2); [discriminate|reflexivity|discriminate]. }
    destruct K2 as (K2 & H2). split.
    - intros s' out F. assert (C : core_fit vsum sdist part argpart P2 (e_ns s1) ind X y = Raise ValueError).
      { unfold core_fit, the_sample. rewrite K2. cbn [sampling_check]. rewrite <- N1. replace (nrow X <=? nrow X1) with true by (symmetry; apply Nat.leb_le; lia). reflexivity. }
      inversion F; subst; unfold fit_check in *; try congruence.
    - eexists. eapply df_ok; [exact CX|]. unfold core_fit, the_sample, hr_is. rewrite K2, H2. cbn [sampling_check fresh e_ns].
      replace (nrow X <=? ns) with false by (symmetry; apply Nat.leb_gt; lia). cbn. reflexivity.
  Qed.
End Fit.

(** ** (4) set_params checks nothing *)
Definition refused (s : setting) : Prop :=
  match s with
  | SetHr v => forall r, ~ option_means hr_names v r
  | SetK (Some v) | SetNs (Some v) => (v < 1)%Z
  | SetSamp v => forall r, ~ option_means sampling_names v r
  | SetMetric v => ~ In v ["sqeuclidean"; "cosine"; "precomputed"]%string
  | SetPred v => v <> "knn"%string
  | SetJobs v => (v < -1)%Z \/ v = 0%Z
  | SetVerb v => (v < 0)%Z
  | _ => False
  end.
Theorem C154_set_params_is_unchecked : forall cpu lsh hnsw a o, 1 <= cpu -> construct cpu lsh hnsw a = Ok o ->
  (forall s, match s with SetOther _ _ => False | _ => True end -> exists o', set_param o s = Ok o' /\ a_kw o' = a_kw o /\
     (refused s -> rebuild cpu lsh hnsw o' = Raise ValueError)) /\
  (forall key v, ~ In (before_dunder key) param_names -> set_param o (SetOther key v) = Raise ValueError).
Proof.
  intros cpu lsh hnsw a o HC H. split.
  - destruct (C154_rebuild _ _ _ _ _ HC H) as (o1 & E1 & _). destruct o as [hr k ns samp me pr rs j vb kw]. clear H.
    unfold rebuild, get_params, construct in E1.
    cbn [a_hr a_k a_ns a_samp a_metric a_pred a_rs a_jobs a_verb a_kw] in E1.
    fold (init_samp lsh hnsw samp) in E1.
    apply bind_ok in E1 as (hr1 & Ehr & E1). apply bind_ok in E1 as ([] & Ek & E1).
    apply bind_ok in E1 as ([] & Ens & E1). apply bind_ok in E1 as (samp1 & Esamp & E1). apply bind_ok in E1 as ([] & Em & E1).
    apply bind_ok in E1 as ([] & Ep & E1). apply bind_ok in E1 as (j1 & Ej & E1). apply bind_ok in E1 as ([] & Ev & _).
    intros s Hs. destruct s as [v|[v|]|[v|]|v|v|v|v|v|v|]; try contradiction Hs; (eexists; split; [reflexivity|]; split; [reflexivity|]; intros HR; cbn [refused] in HR; try (exact (False_ind _ HR)));
      unfold rebuild, get_params, construct; cbn [a_hr a_k a_ns a_samp a_metric a_pred a_rs a_jobs a_verb a_kw].
    + pose proof (init_hr_iff v) as I1. pose proof (init_hr_raise v) as I2. destruct (init_hr v) as [r|e] eqn:E.
      * exfalso. apply (HR r). now apply I1.
      * rewrite (I2 e eq_refl) in E. unfold init_hr in E. destruct v as [h|]; [|discriminate]. revert E.
        destruct (String.eqb (upper h) "NONE"); [discriminate|]. destruct (mem_str (upper h) valid_hr); [discriminate|]. reflexivity.
    + rewrite Ehr. cbn [bind at_least_one]. apply Z.ltb_lt in HR. now rewrite HR.
    + rewrite Ehr. cbn [bind]. rewrite Ek. cbn [bind at_least_one]. apply Z.ltb_lt in HR. now rewrite HR.
    + rewrite Ehr. cbn [bind]. rewrite Ek. cbn [bind]. rewrite Ens. cbn [bind]. fold (init_samp lsh hnsw v).
      pose proof (init_samp_iff lsh hnsw v) as I1. destruct (init_samp lsh hnsw v) as [r|e].
      * exfalso. apply (HR r), I1.
      * destruct I1 as [(_ & r & I1 & _)|(-> & _)]; [exfalso; now apply (HR r)|reflexivity].
    + rewrite Ehr. cbn [bind]. rewrite Ek. cbn [bind]. rewrite Ens. cbn [bind]. fold (init_samp lsh hnsw samp). rewrite Esamp. cbn [bind].
      destruct (mem_str v valid_metrics) eqn:E; [apply mem_str_iff in E; contradiction|reflexivity].
    + rewrite Ehr. cbn [bind]. rewrite Ek. cbn [bind]. rewrite Ens. cbn [bind]. fold (init_samp lsh hnsw samp). rewrite Esamp. cbn [bind]. rewrite Em. cbn [bind].
      destruct (String.eqb_spec v "knn"); [contradiction|reflexivity].
    + rewrite Ehr. cbn [bind]. rewrite Ek. cbn [bind]. rewrite Ens. cbn [bind]. fold (init_samp lsh hnsw samp). rewrite Esamp. cbn [bind]. rewrite Em. cbn [bind]. rewrite Ep. cbn [bind].
      destruct (Z.eqb_spec v (-1)); [lia|]. replace ((v <? -1) || (v =? 0))%Z with true; [reflexivity|].
      symmetry. apply orb_true_iff. destruct HR as [HR|HR]; [left; now apply Z.ltb_lt|right; now apply Z.eqb_eq].
    + rewrite Ehr. cbn [bind]. rewrite Ek. cbn [bind]. rewrite Ens. cbn [bind]. fold (init_samp lsh hnsw samp). rewrite Esamp. cbn [bind]. rewrite Em. cbn [bind]. rewrite Ep. cbn [bind].
      rewrite Ej. cbn [bind]. apply Z.ltb_lt in HR. now rewrite HR.
  - destruct o. intros key v Hk. unfold set_param. destruct (mem_str (before_dunder key) param_names) eqn:E; [|reflexivity].
    apply mem_str_iff in E. contradiction.
Qed.

(** ** (5) which keywords set_params refuses in which way *)
Lemma dunder_cons c s : ~ has_dunder (String c s) -> ~ has_dunder s.
Proof. intros H (a & b & ->). apply H. now exists (String c a), b. Qed.
Lemma before_whole key : ~ has_dunder key -> before_dunder key = key.
Proof.
  induction key as [|c s IH]; [reflexivity|]. intros H. specialize (IH (dunder_cons _ _ H)).
  assert (E : before_dunder (String c s) = String c (before_dunder s)).
  { destruct (ascii_dec c "_") as [->|Hc].
    - destruct s as [|d s]; [reflexivity|]. destruct (ascii_dec d "_") as [->|Hd]; [exfalso; apply H; now exists ""%string, s|].
      destruct d as [[] [] [] [] [] [] [] []]; try reflexivity. now contradiction Hd.
    - destruct c as [[] [] [] [] [] [] [] []]; try reflexivity. now contradiction Hc. }
  now rewrite E, IH.
Qed.
Lemma before_head h rest : ~ has_dunder (h ++ "_") -> before_dunder (h ++ "__" ++ rest) = h.
Proof.
  induction h as [|c h IH]; [reflexivity|]. intros H. specialize (IH (dunder_cons _ _ H)).
  assert (E : before_dunder (String c h ++ "__" ++ rest) = String c (before_dunder (h ++ "__" ++ rest))).
  { change (String c h ++ "__" ++ rest)%string with (String c (h ++ "__" ++ rest)).
    destruct (ascii_dec c "_") as [->|Hc].
    - destruct h as [|d h]; [exfalso; apply H; now exists ""%string, ""%string|].
      destruct (ascii_dec d "_") as [->|Hd]; [exfalso; apply H; now exists ""%string, (h ++ "_")%string|].
      change (String d h ++ "__" ++ rest)%string with (String d (h ++ "__" ++ rest)).
      destruct d as [[] [] [] [] [] [] [] []]; try reflexivity. now contradiction Hd.
    - destruct c as [[] [] [] [] [] [] [] []]; try reflexivity. now contradiction Hc. }
  now rewrite E, IH.
Qed.
Theorem C154_other_keywords : forall o key v h, ~ In key documented -> head_of key h ->
  (In h documented -> set_param o (SetOther key v) = Raise AttributeError) /\
  (~ In h documented -> set_param o (SetOther key v) = Raise ValueError).
Proof.
  intros o key v h _ Hh. assert (E : before_dunder key = h).
  { destruct Hh as [(-> & H)|(rest & -> & H)]; [now apply before_whole|now apply before_head]. }
  destruct o. unfold set_param. rewrite E. split; intros H.
  - apply mem_str_iff in H. change documented with param_names in H. now rewrite H.
  - destruct (mem_str h param_names) eqn:M; [|reflexivity]. apply mem_str_iff in M. contradiction.
Qed.
(** keywords of each kind: nested below a parameter, nested below an unknown name, and with single underscores *)
Example C154_keywords_case :
  ~ In "n_samples__x"%string documented /\ head_of "n_samples__x" "n_samples" /\ In "n_samples"%string documented /\
  head_of "knn__n_neighbors" "knn" /\ ~ In "knn"%string documented /\ head_of "n_sample" "n_sample" /\ ~ In "n_sample"%string documented.
Proof.
  assert (D : forall s, before_dunder s = s -> ~ has_dunder s).
  { intros s E (a & b & ->). apply (f_equal String.length) in E. revert E. apply Nat.lt_neq.
    assert (L : forall t, String.length (before_dunder t) <= String.length t).
    { assert (L2 : forall n t, String.length t < n -> String.length (before_dunder t) <= String.length t).
      { induction n; intros t H; [lia|]. destruct t as [|c t]; [cbn; lia|]. cbn in H. pose proof (IHn t ltac:(lia)).
        assert (B : before_dunder (String c t) = EmptyString \/ before_dunder (String c t) = String c (before_dunder t)).
        { destruct c as [[] [] [] [] [] [] [] []]; auto. destruct t as [|d t]; auto. destruct d as [[] [] [] [] [] [] [] []]; auto. }
        destruct B as [->| ->]; cbn; lia. }
      intros t. apply (L2 (S (String.length t))). lia. }
    induction a as [|c a IH]; [cbn; lia|]. change (String c a ++ "__" ++ b)%string with (String c (a ++ "__" ++ b)).
    assert (B : before_dunder (String c (a ++ "__" ++ b)) = EmptyString \/ before_dunder (String c (a ++ "__" ++ b)) = String c (before_dunder (a ++ "__" ++ b))).
    { destruct c as [[] [] [] [] [] [] [] []]; auto. destruct (a ++ "__" ++ b)%string as [|d t]; auto. destruct d as [[] [] [] [] [] [] [] []]; auto. }
    destruct B as [->| ->]; cbn [String.length]; lia. }
  split; [cbn; intuition discriminate|]. split; [right; exists "x"%string; split; [reflexivity|now apply D]|]. split; [cbn; tauto|].
  split; [right; exists "n_neighbors"%string; split; [reflexivity|now apply D]|]. split; [cbn; intuition discriminate|].
  split; [left; split; [reflexivity|now apply D]|cbn; intuition discriminate].
Qed.

(** ** a case: an object with the option knn__n_neighbors = 1, its copy, and a fit
    that overwrites n_samples *)
Definition args1 : params :=
  Params (Some "mp"%string) (Some 5%Z) (Some 2%Z) (Some "None"%string) "sqeuclidean"%string "knn"%string None (-1)%Z 0%Z [("knn__n_neighbors"%string, 1%Z)].
Definition obj1 : params :=
  Params (Some "MP"%string) (Some 5%Z) (Some 2%Z) None "sqeuclidean"%string "knn"%string None 4%Z 0%Z [("knn__n_neighbors"%string, 1%Z)].
Definition row5 : arr2 xr := Arr2 1 5 (fun _ j => XFin (INR j)).
Theorem C154_witness :
  construct 4 false false args1 = Ok obj1 /\
  exists o', rebuild 4 false false obj1 = Ok o' /\
  (forall argpart argsort, argpart_ok argpart -> argsort_ok argsort ->
     predict_fixed_w xsum argpart argsort WUniform (voters obj1) row5 [[7; 8; 8; 8; 7]%Z] = Ok [[7%Z]] /\
     predict_fixed_w xsum argpart argsort WUniform (voters o') row5 [[7; 8; 8; 8; 7]%Z] = Ok [[8%Z]]) /\
  (forall v, set_param obj1 (SetOther "knn__n_neighbors" v) = Raise ValueError).
Proof.
  split; [reflexivity|]. eexists. split; [reflexivity|]. split; [|reflexivity]. intros ap asr AP AS.
  match goal with |- _ /\ predict_fixed_w _ _ _ _ ?v _ _ = _ => change v with (@None nat) end.
  change (voters obj1) with (Some 1).
  destruct (C153_fixed ap asr AP AS WUniform (Some 1) row5 [[7; 8; 8; 8; 7]%Z]) as (_ & R); try (cbn; lia); [intros y [<-|[]]; reflexivity|].
  destruct (C153_fixed ap asr AP AS WUniform None row5 [[7; 8; 8; 8; 7]%Z]) as (_ & R'); try (cbn; lia); [intros y [<-|[]]; reflexivity|].
  destruct (R ltac:(cbn; lia)) as (p & E & W), (R' (le_n 5)) as (p' & E' & W'). rewrite E, E'. clear R R' E E'.
  assert (H0 : nth 0 (nth 0 p []) 0%Z = 7%Z).
  { destruct W as (_ & t & s & _ & _ & RR). destruct (RR 0 ltac:(cbn; lia)) as (_ & Ho). destruct (Ho 0 ltac:(cbn; lia)) as (nb & (Ln & ND & Bd & Ne) & El).
    destruct nb as [|q [|]]; try discriminate Ln.
    assert (q = 0).
    { destruct (Nat.eq_dec q 0) as [|Q]; [assumption|]. exfalso. specialize (Ne q 0 (or_introl eq_refl) ltac:(cbn; lia)).
      assert (F : ~ In 0 [q]) by (intros [|[]]; lia). apply Ne in F. cbn in F. apply (INR_le q 0) in F. lia. }
    subst q. destruct El as ([A|[]] & _). now rewrite <- A. }
  assert (H1 : nth 0 (nth 0 p' []) 0%Z = 8%Z).
  { destruct W' as (_ & t & s & _ & _ & RR). destruct (RR 0 ltac:(cbn; lia)) as (_ & Ho). destruct (Ho 0 ltac:(cbn; lia)) as (nb & (Ln & ND & Bd & Ne) & El).
    assert (P : Permutation nb [0; 1; 2; 3; 4]).
    { apply NoDup_Permutation_bis; [exact ND|rewrite Ln; cbn; lia|]. intros q Hq. specialize (Bd q Hq). cbn in Bd |- *. lia. }
    apply (elected_w_perm _ _ _ _ _ _ P (fun p _ => weight_perm _ _ _ _ p P)) in El. destruct El as (A & B). cbn [map] in A. set (c := nth 0 (nth 0 p' []) 0%Z) in *.
    destruct (B 8%Z) as (Le & _); [cbn; auto|]. cbn in A. destruct A as [A|[A|[A|[A|[A|[]]]]]]; try (now rewrite <- A); rewrite <- A in Le; exfalso; revert Le;
    rewrite !total_cons; cbn; lra. }
  destruct W as (Lp & t1 & s1 & _ & _ & RR), W' as (Lp' & t2 & s2 & _ & _ & RR').
  destruct (RR 0 ltac:(cbn; lia)) as (L0 & _), (RR' 0 ltac:(cbn; lia)) as (L2 & _).
  cbn in Lp, Lp', L0, L2. clear RR RR'.
  destruct p as [|x [|]]; try discriminate. destruct p' as [|z [|]]; try discriminate. cbn in *.
  destruct x as [|x1 [|]]; try discriminate. destruct z as [|z1 [|]]; try discriminate. cbn in *. subst. auto.
Qed.

(** the hypotheses of (2) and (3) are met by this object *)
Example C154_case :
  option_value "knn__n_neighbors" args1 = Some (Z.of_nat 1) /\
  (exists P, runs_as obj1 P 2 /\
   exists s1, do_fit (V := f64) (fun _ => n0) (fun _ _ _ _ => n0) (fun l _ => l) (fun _ l => l) P (fresh 2) [] (Arr2 4 1 (fun i _ => nofnat i)) None s1 (Done tt)) /\
  a_ns (after_fit 4 obj1) = Some 4%Z /\
  refused (SetK (Some 0%Z)) /\ refused (SetHr (Some "mutual"%string)) /\
  before_dunder "knn__n_neighbors" = "knn"%string /\ ~ In "knn"%string param_names.
Proof.
  split; [reflexivity|]. split; [|split; [reflexivity|split; [reflexivity|split; [|split; [reflexivity|]]]]].
  - exists (Par (Some "MP"%string) "sqeuclidean"%string 5 KNone 4%Z (Some 1)). split; [repeat split|].
    eexists. eapply df_ok; [vm_compute; reflexivity|]. unfold core_fit, the_sample, hr_is. cbn [p_kind sampling_check bind p_hr]. reflexivity.
  - intros r [(H & _)|(c & Hc & Hs & _)].
    + apply upper_iff in H. discriminate.
    + apply upper_iff in Hs. cbn in Hc. destruct Hc as [<-|[<-|[<-|[<-|[<-|[]]]]]]; discriminate.
  - cbn. intuition discriminate.
Qed.

Print Assumptions C154_rebuild.
Print Assumptions C154_copy_predicts_otherwise.
Print Assumptions C154_fit_changes_n_samples.
Print Assumptions C154_switch_to_sampling_fails.
Print Assumptions C154_set_params_is_unchecked.
Print Assumptions C154_other_keywords.
Print Assumptions C154_witness.
Print Assumptions C154_case.
