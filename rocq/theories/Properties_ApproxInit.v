(** Property C74: which arguments the constructor of ApproximateHubnessReduction accepts. *)
From Coq Require Import String Ascii.
From Coq Require Import ZArith List Arith Lia Bool.
From Verif Require Import Py Num NumF32 Arr M_HubnessClass M_Approx S_Approx S_ApproxInit P_ApproxFixed.
Import ListNotations.
Local Open Scope nat_scope.
Local Open Scope py_scope.

Definition same_letterb (a b : ascii) : bool :=
  Ascii.eqb a b || existsb (fun p => Ascii.eqb a (fst p) && Ascii.eqb b (snd p)) (combine lower_letters upper_letters)
  || existsb (fun p => Ascii.eqb b (fst p) && Ascii.eqb a (snd p)) (combine lower_letters upper_letters).
Lemma existsb_pair a b l : existsb (fun p => Ascii.eqb a (fst p) && Ascii.eqb b (snd p)) l = true <-> In (a, b) l.
Proof.
  rewrite existsb_exists. split.
  - intros ((x, y) & I & H). apply andb_true_iff in H as (H1 & H2). apply Ascii.eqb_eq in H1, H2. cbn in *. now subst.
  - intros I. exists (a, b). split; [exact I|]. cbn. now rewrite !Ascii.eqb_refl.
Qed.
Lemma same_letterb_iff a b : same_letterb a b = true <-> same_letter a b.
Proof.
  unfold same_letterb, same_letter. rewrite !orb_true_iff, !existsb_pair, Ascii.eqb_eq. tauto.
Qed.

Definition all_ascii : list ascii := map ascii_of_nat (seq 0 256).
Lemma all_ascii_in a : In a all_ascii.
Proof.
  unfold all_ascii. rewrite <- (ascii_nat_embedding a). apply in_map, in_seq. split; [lia|]. cbn. apply nat_ascii_bounded.
Qed.
Lemma upper_letter_b : forallb (fun a => forallb (fun b => Bool.eqb (Ascii.eqb (upper_ascii a) (upper_ascii b)) (same_letterb a b)) all_ascii) all_ascii = true.
Proof. vm_compute. reflexivity. Qed.
Lemma lower_letter_b : forallb (fun a => forallb (fun b => Bool.eqb (Ascii.eqb (lower_ascii a) (lower_ascii b)) (same_letterb a b)) all_ascii) all_ascii = true.
Proof. vm_compute. reflexivity. Qed.
Lemma letter_of f : forallb (fun a => forallb (fun b => Bool.eqb (Ascii.eqb (f a) (f b)) (same_letterb a b)) all_ascii) all_ascii = true ->
  forall a b, f a = f b <-> same_letter a b.
Proof.
  intros H a b. rewrite forallb_forall in H. specialize (H a (all_ascii_in a)). rewrite forallb_forall in H.
  specialize (H b (all_ascii_in b)). apply eqb_prop in H. rewrite <- same_letterb_iff, <- H. symmetry. apply Ascii.eqb_eq.
Qed.
Lemma upper_iff s t : upper s = upper t <-> same_word s t.
Proof.
  revert t. induction s as [|a s IH]; intros [|b t]; cbn; try (split; [discriminate|tauto]); [tauto|].
  rewrite <- IH, <- (letter_of upper_ascii upper_letter_b). split; [intros E; now injection E|intros (-> & ->); reflexivity].
Qed.
Lemma lower_iff s t : lower s = lower t <-> same_word s t.
Proof.
  revert t. induction s as [|a s IH]; intros [|b t]; cbn; try (split; [discriminate|tauto]); [tauto|].
  rewrite <- IH, <- (letter_of lower_ascii lower_letter_b). split; [intros E; now injection E|intros (-> & ->); reflexivity].
Qed.

Lemma upper_is s c : upper c = c -> (String.eqb (upper s) c = true <-> same_word s c).
Proof. intros H. rewrite String.eqb_eq. rewrite <- H at 1. apply upper_iff. Qed.
Lemma lower_is s c : lower c = c -> (String.eqb (lower s) c = true <-> same_word s c).
Proof. intros H. rewrite String.eqb_eq. rewrite <- H at 1. apply lower_iff. Qed.
Lemma mem_str_iff s l : mem_str s l = true <-> In s l.
Proof.
  unfold mem_str. rewrite existsb_exists. split; [intros (x & I & E); apply String.eqb_eq in E; now subst|].
  intros I. exists s. split; [exact I|]. apply String.eqb_refl.
Qed.

(** the names the documentation gives *)
Definition hr_names : list string := ["MP"; "MPG"; "LS"; "NICDM"; "DSL"]%string.
Definition sampling_names : list string := ["random"; "kmeans++"; "lsh"; "hnsw"]%string.

Definition init_hr (hr : option string) : result (option string) :=
  match hr with
  | None => Ok None
  | Some h => if String.eqb (upper h) "NONE" then Ok None
              else if mem_str (upper h) valid_hr then Ok (Some (upper h)) else Raise ValueError
  end.
Lemma none_upper s : same_word s "NONE" <-> same_word s "none".
Proof. rewrite <- !upper_iff. reflexivity. Qed.
Lemma init_hr_iff hr r : init_hr hr = Ok r <-> option_means hr_names hr r.
Proof.
  destruct hr as [h|]; cbn [init_hr option_means]; [|split; intros E; [now injection E|now subst]].
  assert (U : forall c, In c hr_names -> upper c = c) by (intros c [<-|[<-|[<-|[<-|[<-|[]]]]]]; reflexivity).
  pose proof (upper_is h "NONE" eq_refl) as HN. rewrite none_upper in HN.
  destruct (String.eqb (upper h) "NONE") eqn:E.
  - split.
    + intros Q. injection Q as <-. left. tauto.
    + intros [(_ & ->)|(c & Hc & Hs & ->)]; [reflexivity|].
      apply upper_iff in Hs. rewrite (U c Hc) in Hs. apply String.eqb_eq in E. rewrite E in Hs. subst c.
      exfalso. cbn in Hc. intuition discriminate.
  - destruct (mem_str (upper h) valid_hr) eqn:M.
    + apply mem_str_iff in M. split.
      * intros Q. injection Q as <-. right. exists (upper h). split; [exact M|]. split; [|reflexivity].
        apply upper_iff. symmetry. now apply U.
      * intros [(H & _)|(c & Hc & Hs & ->)]; [apply HN in H; discriminate|]. apply upper_iff in Hs. rewrite (U c Hc) in Hs. now rewrite Hs.
    + split; [discriminate|]. intros [(H & _)|(c & Hc & Hs & ->)]; [apply HN in H; discriminate|].
      apply upper_iff in Hs. rewrite (U c Hc) in Hs. rewrite Hs in M. apply mem_str_iff in Hc.
      change hr_names with valid_hr in Hc. congruence.
Qed.
Lemma init_hr_raise hr e : init_hr hr = Raise e -> e = ValueError.
Proof.
  destruct hr as [h|]; cbn [init_hr]; [|discriminate]. destruct (String.eqb _ _); [discriminate|].
  destruct (mem_str _ _); [discriminate|]. now intros [= ->].
Qed.

Definition init_samp (lsh hnsw : bool) (samp : option string) : result (option string) :=
  match samp with
  | None => Ok None
  | Some s => if String.eqb (lower s) "none" then Ok None
              else if negb (mem_str (lower s) valid_sample) then Raise ValueError
              else if String.eqb (lower s) "lsh" && negb lsh then Raise ImportError
              else if String.eqb (lower s) "hnsw" && negb hnsw then Raise ImportError
              else Ok (Some (lower s))
  end.
(** the library a sampling needs is installed *)
Definition installed (lsh hnsw : bool) (samp : option string) : Prop :=
  (samp = Some "lsh"%string -> lsh = true) /\ (samp = Some "hnsw"%string -> hnsw = true).
Lemma init_samp_iff lsh hnsw samp :
  match init_samp lsh hnsw samp with
  | Ok r => option_means sampling_names samp r /\ installed lsh hnsw r /\
            forall r', option_means sampling_names samp r' -> r' = r
  | Raise e => (e = ImportError /\ exists r, option_means sampling_names samp r /\ ~ installed lsh hnsw r /\
                                     forall r', option_means sampling_names samp r' -> r' = r) \/
               (e = ValueError /\ forall r, ~ option_means sampling_names samp r)
  end.
Proof.
  destruct samp as [s|]; cbn [init_samp option_means]; [|repeat split; auto; discriminate].
  assert (U : forall c, In c sampling_names -> lower c = c) by (intros c [<-|[<-|[<-|[<-|[]]]]]; reflexivity).
  pose proof (lower_is s "none" eq_refl) as HN.
  destruct (String.eqb (lower s) "none") eqn:E.
  - split; [left; tauto|]. split; [split; discriminate|]. intros r' [(_ & ->)|(c & Hc & Hs & ->)]; [reflexivity|].
    apply lower_iff in Hs. rewrite (U c Hc) in Hs. apply String.eqb_eq in E. rewrite E in Hs. subst c.
    exfalso. cbn in Hc. intuition discriminate.
  - destruct (mem_str (lower s) valid_sample) eqn:M; cbn [negb].
    + apply mem_str_iff in M.
      assert (A : option_means sampling_names (Some s) (Some (lower s))).
      { right. exists (lower s). split; [exact M|]. split; [|reflexivity]. apply lower_iff. symmetry. now apply U. }
      assert (B : forall r', option_means sampling_names (Some s) r' -> r' = Some (lower s)).
      { intros r' [(H & _)|(c & Hc & Hs & ->)]; [apply HN in H; discriminate|]. apply lower_iff in Hs. rewrite (U c Hc) in Hs. now rewrite Hs. }
      cbn [option_means] in A, B.
      destruct (String.eqb_spec (lower s) "lsh") as [L|L]; cbn [andb].
      * rewrite L in *. destruct lsh; cbn.
        -- split; [exact A|]. split; [split; [reflexivity|discriminate]|exact B].
        -- left. split; [reflexivity|]. exists (Some "lsh"%string). split; [exact A|]. split; [|exact B].
           intros (I & _). specialize (I eq_refl). discriminate.
      * destruct (String.eqb_spec (lower s) "hnsw") as [L'|L']; cbn [andb].
        -- rewrite L' in *. destruct hnsw; cbn.
           ++ split; [exact A|]. split; [split; [discriminate|reflexivity]|exact B].
           ++ left. split; [reflexivity|]. exists (Some "hnsw"%string). split; [exact A|]. split; [|exact B].
              intros (_ & I). specialize (I eq_refl). discriminate.
        -- split; [exact A|]. split; [split; intros Q; injection Q; intros; contradiction|exact B].
    + right. split; [reflexivity|]. intros r [(H & _)|(c & Hc & Hs & ->)]; [apply HN in H; discriminate|].
      apply lower_iff in Hs. rewrite (U c Hc) in Hs. rewrite Hs in M. apply mem_str_iff in Hc.
      change sampling_names with valid_sample in Hc. congruence.
Qed.

(** Everything but the installed libraries is in order. *)
Definition good_arguments (hr : option string) (k ns : Z) (samp : option string) (metric pred : string)
    (n_jobs verbose : Z) : Prop :=
  (exists h, option_means hr_names hr h) /\ (1 <= k)%Z /\ (1 <= ns)%Z /\ (exists s, option_means sampling_names samp s) /\
  In metric ["sqeuclidean"; "cosine"; "precomputed"]%string /\ pred = "knn"%string /\
  (n_jobs = -1 \/ 1 <= n_jobs)%Z /\ (0 <= verbose)%Z.

(** The constructor succeeds exactly on these; names are recognised in any
    mixture of upper and lower case; n_jobs = -1 means all processors. *)
Theorem C74_accepts :
  forall hr k ns samp metric pred n_jobs verbose cpu lsh hnsw q,
    suqhr_init hr k ns samp metric pred n_jobs verbose cpu lsh hnsw = Ok q <->
    good_arguments hr k ns samp metric pred n_jobs verbose /\ installed lsh hnsw (q_samp q) /\
    option_means hr_names hr (q_hr q) /\ option_means sampling_names samp (q_samp q) /\
    Z.of_nat (q_k q) = k /\ Z.of_nat (q_ns q) = ns /\ q_metric q = metric /\
    q_jobs q = (if Z.eq_dec n_jobs (-1) then Z.of_nat cpu else n_jobs).
Proof.
  intros hr k ns samp metric pred nj verb cpu lsh hnsw q. unfold suqhr_init, good_arguments.
  fold (init_hr hr). fold (init_samp lsh hnsw samp).
  pose proof (init_hr_iff hr) as H1. pose proof (init_samp_iff lsh hnsw samp) as H2.
  destruct (init_hr hr) as [h|e]; cbn [bind].
  2:{ split; [discriminate|]. intros (_ & _ & H & _). apply H1 in H. discriminate. }
  pose proof (proj1 (H1 h) eq_refl) as Hh.
  destruct (Z.ltb_spec k 1) as [L|L]; cbn [guard bind]; [split; [discriminate|intros ((_ & ? & _) & _); lia]|].
  destruct (Z.ltb_spec ns 1) as [L1|L1]; cbn [guard bind]; [split; [discriminate|intros ((_ & _ & ? & _) & _); lia]|].
  destruct (init_samp lsh hnsw samp) as [s|e]; cbn [bind].
  2:{ split; [discriminate|]. intros (_ & I & _ & Hs & _). destruct H2 as [(_ & r & _ & NI & U)|(_ & NI)].
      - rewrite (U _ Hs) in I. contradiction.
      - now apply NI in Hs. }
  destruct H2 as (Hs & Is & Us).
  assert (HM : mem_str metric valid_metrics = true <-> In metric ["sqeuclidean"; "cosine"; "precomputed"]%string) by apply mem_str_iff.
  destruct (mem_str metric valid_metrics); cbn [negb guard bind].
  2:{ split; [discriminate|]. intros ((_ & _ & _ & _ & I & _) & _). apply HM in I. discriminate. }
  destruct (String.eqb_spec pred "knn") as [P|P]; cbn [negb guard bind].
  2:{ split; [discriminate|]. intros ((_ & _ & _ & _ & _ & I & _) & _). contradiction. }
  assert (HJ : (exists j, (if (nj =? -1)%Z then Ok (Z.of_nat cpu) else guard ((nj <? -1) || (nj =? 0))%Z ValueError;; Ok nj) = Ok j /\
                 (nj = -1 \/ 1 <= nj)%Z /\ j = (if Z.eq_dec nj (-1) then Z.of_nat cpu else nj)) \/
               ((if (nj =? -1)%Z then Ok (Z.of_nat cpu) else guard ((nj <? -1) || (nj =? 0))%Z ValueError;; Ok nj) = Raise ValueError /\
                ~ (nj = -1 \/ 1 <= nj)%Z)).
  { destruct (Z.eqb_spec nj (-1)) as [->|J].
    - left. eexists. split; [reflexivity|]. split; [lia|reflexivity].
    - destruct (Z.ltb_spec nj (-1)); cbn [orb guard bind]; [right; split; [reflexivity|lia]|].
      destruct (Z.eqb_spec nj 0); cbn [guard bind]; [right; split; [reflexivity|lia]|].
      left. exists nj. split; [reflexivity|]. split; [lia|]. destruct (Z.eq_dec nj (-1)); [contradiction|reflexivity]. }
  destruct HJ as [(j & -> & J1 & J2)|(-> & J)]; cbn [bind].
  2:{ split; [discriminate|]. intros ((_ & _ & _ & _ & _ & _ & I & _) & _). contradiction. }
  destruct (Z.ltb_spec verb 0) as [Lv|Lv]; cbn [guard bind].
  { split; [discriminate|]. intros ((_ & _ & _ & _ & _ & _ & _ & I) & _). lia. }
  split.
  - intros E. injection E as <-. cbn. rewrite !Z2Nat.id by lia. repeat split; eauto; try apply HM; try apply Is; auto.
  - destruct q as [qh qk qn qs qm qj]. cbn. intros (_ & _ & A & B & C & D & <- & F).
    apply Us in B. apply H1 in A. injection A as ->. subst. rewrite !Nat2Z.id. reflexivity.
Qed.

(** Otherwise it raises ImportError if only the library for the sampling is
    missing, and ValueError in every case with a wrong argument, except that a
    missing library is reported before a wrong metric, predictor, n_jobs or
    verbose. *)
Theorem C74_errors :
  forall hr k ns samp metric pred n_jobs verbose cpu lsh hnsw e,
    suqhr_init hr k ns samp metric pred n_jobs verbose cpu lsh hnsw = Raise e ->
    (e = ImportError /\ (exists h, option_means hr_names hr h) /\ (1 <= k)%Z /\ (1 <= ns)%Z /\
     exists s, option_means sampling_names samp s /\ ~ installed lsh hnsw s) \/
    (e = ValueError /\ ~ good_arguments hr k ns samp metric pred n_jobs verbose).
Proof.
  intros hr k ns samp metric pred nj verb cpu lsh hnsw e.
  destruct (suqhr_init hr k ns samp metric pred nj verb cpu lsh hnsw) as [q|e'] eqn:E; [discriminate|]. intros [= ->].
  revert E. unfold suqhr_init, good_arguments. fold (init_hr hr). fold (init_samp lsh hnsw samp).
  pose proof (init_hr_iff hr) as H1. pose proof (init_samp_iff lsh hnsw samp) as H2. pose proof (init_hr_raise hr) as H3.
  destruct (init_hr hr) as [h|e']; cbn [bind].
  2:{ intros [= ->]. right. split; [now apply H3|]. intros ((h & A) & _). apply H1 in A. discriminate. }
  pose proof (proj1 (H1 h) eq_refl) as Hh.
  destruct (Z.ltb_spec k 1) as [L|L]; cbn [guard bind]; [intros [= <-]; right; split; [reflexivity|]; intros (_ & ? & _); lia|].
  destruct (Z.ltb_spec ns 1) as [L1|L1]; cbn [guard bind]; [intros [= <-]; right; split; [reflexivity|]; intros (_ & _ & ? & _); lia|].
  destruct (init_samp lsh hnsw samp) as [s|e']; cbn [bind].
  2:{ intros [= ->]. destruct H2 as [(-> & r & A & NI & U)|(-> & NI)].
      - left. split; [reflexivity|]. split; [eauto|]. split; [lia|]. split; [lia|]. eauto.
      - right. split; [reflexivity|]. intros (_ & _ & _ & (r & A) & _). now apply NI in A. }
  assert (HM : mem_str metric valid_metrics = true <-> In metric ["sqeuclidean"; "cosine"; "precomputed"]%string) by apply mem_str_iff.
  destruct (mem_str metric valid_metrics); cbn [negb guard bind].
  2:{ intros [= <-]. right. split; [reflexivity|]. intros (_ & _ & _ & _ & I & _). apply HM in I. discriminate. }
  destruct (String.eqb_spec pred "knn") as [P|P]; cbn [negb guard bind].
  2:{ intros [= <-]. right. split; [reflexivity|]. intros (_ & _ & _ & _ & _ & I & _). contradiction. }
  destruct (Z.eqb_spec nj (-1)) as [->|J]; cbn [bind].
  - destruct (Z.ltb_spec verb 0) as [Lv|Lv]; cbn [guard bind]; [|discriminate].
    intros [= <-]. right. split; [reflexivity|]. intros (_ & _ & _ & _ & _ & _ & _ & I). lia.
  - destruct (Z.ltb_spec nj (-1)); cbn [orb guard bind]; [intros [= <-]; right; split; [reflexivity|]; intros (_ & _ & _ & _ & _ & _ & I & _); lia|].
    destruct (Z.eqb_spec nj 0); cbn [guard bind]; [intros [= <-]; right; split; [reflexivity|]; intros (_ & _ & _ & _ & _ & _ & I & _); lia|].
    destruct (Z.ltb_spec verb 0) as [Lv|Lv]; cbn [guard bind]; [|discriminate].
    intros [= <-]. right. split; [reflexivity|]. intros (_ & _ & _ & _ & _ & _ & _ & I). lia.
Qed.

(** DEFECT: metric = 'precomputed' is accepted, but no fixed vantage point method
    works with it, and without hubness reduction it means 'sqeuclidean'. *)
Theorem C74_precomputed :
  forall hr k ns samp pred n_jobs verbose cpu lsh hnsw q,
    good_arguments hr k ns samp "precomputed" pred n_jobs verbose -> option_means sampling_names samp (q_samp q) ->
    installed lsh hnsw (q_samp q) ->
    (exists q', suqhr_init hr k ns samp "precomputed" pred n_jobs verbose cpu lsh hnsw = Ok q') /\
    forall vsum sdist vexp vsf part argpart s kk nn nj (Xall X : arr2 f32),
      clean Xall -> (forall ind, s = SRandom ind -> nn < nrow Xall) ->
      (forall r, mp_fixed sdist f32_of "precomputed" s nn nj Xall X r -> r = Raise ValueError) /\
      mpg_fixed vsum sdist vsf "precomputed" s nn Xall X = Raise ValueError /\
      (forall nicdm, ls_fixed vsum sdist vexp part nicdm "precomputed" kk s nn Xall X = Raise UnboundLocalError) /\
      dsl_fixed vsum sdist argpart "precomputed" kk s nn Xall X = Raise ValueError /\
      transform_without_hr sdist "precomputed" Xall X = transform_without_hr sdist "sqeuclidean" Xall X.
Proof.
  intros hr k ns samp pred nj verb cpu lsh hnsw q G Hs Hi. split.
  - destruct G as ((h & Hh) & G2 & G3 & G4 & G).
    eexists (SuQHR h (Z.to_nat k) (Z.to_nat ns) (q_samp q) "precomputed" (if Z.eq_dec nj (-1) then Z.of_nat cpu else nj)).
    apply C74_accepts. cbn. rewrite !Z2Nat.id by lia. split; [|repeat split; try apply Hi; auto].
    split; [eauto|]. split; [exact G2|]. split; [exact G3|]. split; [exact G4|exact G].
  - intros vsum sdist vexp vsf part argpart s kk nn nj' Xall X C Hr.
    assert (SF : sampling_fits s (nrow Xall) nn) by (destruct s as [|l|l]; cbn; auto; exact (Hr l eq_refl)).
    assert (E1 : fit_check Xall = Ok tt) by (now apply check_array_iff).
    assert (E2 : sampling_check s (nrow Xall) nn = Ok tt).
    { assert (E := proj2 (fit_ok_iff Xall s nn) (conj C SF)). rewrite E1 in E. exact E. }
    split; [|split; [|split; [|split]]].
    + intros r H. destruct H as [e H|r _ H]; [rewrite E1, E2 in H; discriminate|]. destruct H; try discriminate. reflexivity.
    + unfold mpg_fixed. rewrite E1, E2. reflexivity.
    + intros nicdm. unfold ls_fixed. rewrite E1, E2. reflexivity.
    + unfold dsl_fixed. rewrite E1, E2. reflexivity.
    + unfold transform_without_hr. destruct (trans_check X Xall); reflexivity.
Qed.

(** mixed case names, all processors *)
Example ex_C74 :
  good_arguments (Some "NicDM"%string) 5 100 (Some "KMeans++"%string) "cosine" "knn" (-1) 0 /\
  exists q, suqhr_init (Some "NicDM"%string) 5 100 (Some "KMeans++"%string) "cosine" "knn" (-1) 0 8 false false = Ok q /\
    q_hr q = Some "NICDM"%string /\ q_samp q = Some "kmeans++"%string /\ q_jobs q = 8%Z.
Proof.
  split.
  - repeat split; try lia; cbn; auto.
    + exists (Some "NICDM"%string). right. exists "NICDM"%string. split; [cbn; auto|]. split; [|reflexivity]. apply -> (upper_iff "NicDM" "NICDM"). reflexivity.
    + exists (Some "kmeans++"%string). right. exists "kmeans++"%string. split; [cbn; auto|]. split; [|reflexivity]. apply -> (lower_iff "KMeans++" "kmeans++"). reflexivity.
  - eexists. split; [vm_compute; reflexivity|]. repeat split.
Qed.
Example ex_C74_errors :
  suqhr_init None 5 100 (Some "HNSW"%string) "cosine" "knn" 1 0 8 true false = Raise ImportError /\
  suqhr_init None 5 100 None "cosine" "knn" 0 0 8 true true = Raise ValueError.
Proof. split; reflexivity. Qed.

Print Assumptions C74_accepts.
Print Assumptions C74_errors.
Print Assumptions C74_precomputed.
