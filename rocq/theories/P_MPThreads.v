(** mp_dissim called from several threads: a call that is not disturbed, and the
    invariants of undisturbed schedules. *)
From Coq Require Import String.
From Coq Require Import ZArith List Arith Lia Bool.
From Verif Require Import Py Num Arr Sort Conc M_IO M_SNN M_MPDissim P_MPDissim P_MPDissim2 P_MPDissim4 P_ApproxANN M_MPThreads.
Import ListNotations.
Local Open Scope nat_scope.

Lemma mapM_pair {A B C} (f : A -> result (B * C)) (g : A -> result C) (F : A -> C -> B) l :
  (forall a, f a = bind (g a) (fun e => Ok (F a e, e))) ->
  forall h, mapM f l = Ok h -> mapM g l = Ok (map snd h) /\
    forall i d d', i < length l -> fst (nth i h d) = F (nth i l d') (snd (nth i h d)).
Proof.
  intros HF. induction l as [|a l IH]; cbn; intros h E.
  - injection E as <-. split; [reflexivity|]. intros i d d' Hi. inversion Hi.
  - rewrite HF in E. destruct (g a) as [e|e] eqn:Eg; cbn in E; [|discriminate].
    destruct (mapM f l) as [hs|e'] eqn:El; cbn in E; [|discriminate]. injection E as <-.
    destruct (IH hs eq_refl) as [I1 I2]. rewrite I1. cbn. split; [reflexivity|].
    intros [|i] d d' Hi; cbn; [reflexivity|]. apply I2. lia.
Qed.
Lemma mapM_pair_raise {A B C} (f : A -> result (B * C)) (g : A -> result C) (F : A -> C -> B) l :
  (forall a, f a = bind (g a) (fun e => Ok (F a e, e))) ->
  forall a e, In a l -> f a = Raise e -> exists e', mapM g l = Raise e'.
Proof.
  intros HF a e Ha Hf. destruct (mapM g l) as [r|e'] eqn:E; [|eauto]. exfalso.
  assert (X : exists r, mapM g l = Ok r) by eauto. rewrite mapM_ok_iff in X. destruct (X a Ha) as (b & Hb).
  rewrite HF, Hb in Hf. discriminate.
Qed.
Lemma last_snoc {A} (l : list A) (x d : A) : last (l ++ [x]) d = x.
Proof. induction l as [|a l IH]; [reflexivity|]. cbn. destruct (l ++ [x]) eqn:E; [destruct l; discriminate|exact IH]. Qed.

Section One.
  Context {V : Type} {N : Num V}.
  Variable vpow : V -> V -> V.
  Variable part : list V -> list nat -> list V.
  Notation mcall := (mcall (V := V)).

  (** what a single call of mp_dissim may return *)
  Definition outcome (c : mcall) (r : result (arr2 V)) : Prop :=
    mp_dissim vpow part (c_X c) (c_Y c) (c_p c) (c_bins c) (c_bin c) (c_jobs c) (c_cpus c) r.
  Definition prep (c : mcall) : result (list (list V)) :=
    mpd_prepare part (c_X c) (call_Y c) (c_bins c) (c_bin c) (c_jobs c) (c_cpus c).
  Definition the_step (c : mcall) : nat := mpd_step (nrow (call_Y c)) (call_nb c).
  Definition the_raw (c : mcall) : list nat := raw_kth (nrow (call_Y c)) (the_step c).
  Definition the_kth (c : mcall) : list nat := mpd_kth (nrow (call_Y c)) (the_step c).

  Lemma kth_of_raw c : the_kth c = if last (the_raw c) 0 =? nrow (call_Y c) - 1 then the_raw c else the_raw c ++ [nrow (call_Y c) - 1].
  Proof. reflexivity. Qed.

  Lemma out_raise c e : prep c = Raise e -> outcome c (Raise e).
  Proof. intros H. apply mpd_fail. exact H. Qed.

  Lemma check_raise c e : call_check c = Raise e -> prep c = Raise e.
  Proof.
    unfold call_check, prep, mpd_prepare, call_nb. destruct (negb (ncol (c_X c) =? ncol (call_Y c))); cbn [guard bind]; [congruence|].
    destruct (c_bins c <? 0)%Z; cbn [guard bind]; [congruence|]. destruct (c_bins c =? 0)%Z; cbn [guard bind]; [congruence|].
    destruct (mpd_step _ _ =? 0); cbn [guard bind]; congruence.
  Qed.
  Lemma check_ok c : call_check c = Ok tt -> ncol (c_X c) = ncol (call_Y c) /\ 0 < call_nb c /\ 0 < the_step c /\
    prep c = if (call_workers c <? 1)%Z then Raise ValueError
             else if String.prefix (c_bin c) "mass" then mapM (fun i => mass_edges part (the_kth c) (coll (call_Y c) i)) (seq 0 (ncol (call_Y c)))
             else if String.prefix (c_bin c) "range" then mapM (fun i => range_edges (call_nb c) (coll (call_Y c) i)) (seq 0 (ncol (call_Y c)))
             else Raise ValueError.
  Proof.
    unfold call_check, prep, mpd_prepare, call_workers, the_kth, the_step, call_nb. destruct (Nat.eqb_spec (ncol (c_X c)) (ncol (call_Y c))) as [E1|]; cbn [negb guard bind]; [|discriminate].
    destruct (Z.ltb_spec (c_bins c) 0); cbn [guard bind]; [discriminate|]. destruct (Z.eqb_spec (c_bins c) 0); cbn [guard bind]; [discriminate|].
    destruct (Nat.eqb_spec (mpd_step (nrow (call_Y c)) (Z.to_nat (c_bins c))) 0); cbn [guard bind]; [discriminate|]. intros _.
    split; [exact E1|]. split; [lia|]. split; [lia|].
    destruct ((if (c_jobs c =? -1)%Z then Z.of_nat (c_cpus c) else c_jobs c) <? 1)%Z; cbn [guard bind]; reflexivity.
  Qed.

  Definition edges_of (c : mcall) (kth : list nat) (i : nat) : result (list V) :=
    if String.prefix (c_bin c) "mass" then mass_edges part kth (coll (call_Y c) i) else range_edges (call_nb c) (coll (call_Y c) i).

  Lemma task_edges c f kth i : hist_task part c = Some f -> f kth i = bind (edges_of c kth i) (fun e => Ok (hist e (coll (call_Y c) i), e)).
  Proof.
    unfold hist_task, edges_of. destruct (String.prefix (c_bin c) "mass"); [intros [= <-]; reflexivity|].
    destruct (String.prefix (c_bin c) "range"); [intros [= <-]; reflexivity|discriminate].
  Qed.
  Lemma task_error c f kth i e : hist_task part c = Some f -> f kth i = Raise e -> e = ValueError.
  Proof.
    intros Hf. rewrite (task_edges c f kth i Hf). unfold edges_of, mass_edges, np_partition, range_edges.
    destruct (String.prefix (c_bin c) "mass").
    - destruct (kth_legal _ _); cbn; congruence.
    - destruct (coll (call_Y c) i); cbn [bind]; [congruence|]. destruct (existsb _ _); cbn [guard bind]; congruence.
  Qed.

  Lemma prep_task c f : call_check c = Ok tt -> (1 <= call_workers c)%Z -> hist_task part c = Some f ->
    prep c = mapM (edges_of c (the_kth c)) (seq 0 (ncol (call_Y c))).
  Proof.
    intros HC HW Hf. destruct (check_ok c HC) as (_ & _ & _ & ->). replace (call_workers c <? 1)%Z with false by (symmetry; apply Z.ltb_ge; lia).
    unfold hist_task in Hf. unfold edges_of. destruct (String.prefix (c_bin c) "mass"); [reflexivity|].
    destruct (String.prefix (c_bin c) "range"); [reflexivity|discriminate].
  Qed.

  (** the histograms of an undisturbed call *)
  Definition the_hist (c : mcall) (h : list (histo (V := V))) : Prop :=
    exists f, hist_task part c = Some f /\ mapM (fun i => f (the_kth c) i) (seq 0 (ncol (call_Y c))) = Ok h.

  Lemma the_hist_prep c h : call_check c = Ok tt -> (1 <= call_workers c)%Z -> the_hist c h ->
    prep c = Ok (map snd h) /\ length h = ncol (c_X c) /\
    forall i d, i < ncol (c_X c) -> fst (nth i h d) = hist (snd (nth i h d)) (coll (call_Y c) i).
  Proof.
    intros HC HW (f & Hf & HM). destruct (check_ok c HC) as (EC & _).
    destruct (mapM_pair _ (edges_of c (the_kth c)) (fun i e => hist e (coll (call_Y c) i)) _ (fun i => task_edges c f (the_kth c) i Hf) h HM) as [P1 P2].
    split; [rewrite (prep_task c f HC HW Hf); exact P1|]. split; [rewrite (mapM_length _ _ _ HM), seq_length; congruence|].
    intros i d Hi. rewrite EC in Hi. specialize (P2 i d 0 ltac:(rewrite seq_length; exact Hi)). rewrite seq_nth in P2 by exact Hi. exact P2.
  Qed.

  Lemma same_len_nth {A} (l : list A) i d : i < length l -> nth_error l i = Some (nth i l d).
  Proof. revert i. induction l as [|a l IH]; intros [|i] Hi; cbn in *; try lia; [reflexivity|]. apply IH. lia. Qed.
  Lemma all_nth {A} (P : A -> Prop) ws i d : (forall w, In w ws -> P w) -> i < length ws -> P (nth i ws d).
  Proof. intros H Hi. apply H. apply nth_In. exact Hi. Qed.

  (** the last step, when all workers have the right histograms *)
  Lemma finish c h ws g g' ph : call_check c = Ok tt -> (1 <= call_workers c)%Z -> the_hist c h -> (forall w, In w ws -> w = h) ->
    mstep vpow part c g (Fork2 ws) g' ph -> (exists r, ph = Done r /\ outcome c r) \/ (g' = g /\ ph = Fork2 (ws ++ [g_hist g])).
  Proof.
    intros HC HW HH Hws H. destruct (the_hist_prep c h HC HW HH) as (HP & HL & HE).
    set (d0 := (@nil nat, @nil V)).
    assert (OH : forall i, i < ncol (c_X c) -> own_hist h i = Ok (nth i h d0)).
    { intros i Hi. unfold own_hist. rewrite (same_len_nth h i d0) by lia. reflexivity. }
    assert (EN : forall i, i < ncol (c_X c) -> snd (nth i h d0) = nth i (map snd h) []).
    { intros i Hi. change (@nil V) with (snd d0). rewrite map_nth. reflexivity. }
    assert (FT : forall i, i < ncol (c_X c) -> fit_task (call_nb c) h i = guard (negb (hist_fits (call_nb c) (hist (nth i (map snd h) []) (coll (call_Y c) i)))) ValueError).
    { intros i Hi. unfold fit_task. rewrite (OH i Hi). cbn [bind]. rewrite (HE i d0 Hi), (EN i Hi). reflexivity. }
    inversion H; subst.
    - right. auto.
    - left. eexists. split; [reflexivity|]. match goal with HW : In ?w ws |- _ => rewrite (Hws w HW) in * end.
      match goal with HI : i < _, HF : fit_task _ _ _ = _ |- _ => rewrite (FT i HI) in HF end.
      destruct (hist_fits _ _) eqn:F; cbn [negb guard] in *; [discriminate|]. match goal with HF : Raise _ = Raise _ |- _ => injection HF as <- end.
      apply (mpd_misfit vpow part (c_X c) (c_Y c) (c_p c) (c_bins c) (c_bin c) (c_jobs c) (c_cpus c) (map snd h)); [exact HP|].
      apply existsb_exists. exists i. split; [apply in_seq; lia|]. apply negb_true_iff. exact F.
    - exfalso. match goal with HW : In ?w ws |- _ => rewrite (Hws w HW) in * end.
      match goal with HI : i < _, HF : own_hist _ _ = _ |- _ => rewrite (OH i HI) in HF end. discriminate.
    - left. eexists. split; [reflexivity|].
      assert (WA : forall i, i < ncol (c_X c) -> nth (who i) ws [] = h) by (intros i Hi; apply (all_nth (fun w => w = h)); auto).
      assert (WB : forall i, i < ncol (c_X c) -> nth (who' i) ws [] = h) by (intros i Hi; apply (all_nth (fun w => w = h)); auto).
      assert (E2 : forall i, i < ncol (c_X c) -> h2 i = nth i h d0).
      { intros i Hi. match goal with HX : forall i, _ -> own_hist (nth (who i) ws []) i = _ |- _ => specialize (HX i Hi); rewrite (WA i Hi), (OH i Hi) in HX; injection HX as <- end. reflexivity. }
      assert (E3 : forall i, i < ncol (c_X c) -> h3 i = nth i h d0).
      { intros i Hi. match goal with HX : forall i, _ -> own_hist (nth (who' i) ws []) i = _ |- _ => specialize (HX i Hi); rewrite (WB i Hi), (OH i Hi) in HX; injection HX as <- end. reflexivity. }
      apply (mpd_run vpow part (c_X c) (c_Y c) (c_p c) (c_bins c) (c_bin c) (c_jobs c) (c_cpus c) (map snd h) Rb bb out).
      + exact HP.
      + destruct (existsb _ _) eqn:X; [|reflexivity]. exfalso. apply existsb_exists in X as (i & Hi & X). apply in_seq in Hi.
        match goal with HX : forall i, _ -> fit_task _ _ i = _ |- _ => specialize (HX i ltac:(lia)); rewrite (WA i ltac:(lia)), (FT i ltac:(lia)) in HX end.
        change (match c_Y c with Some Y => Y | None => c_X c end) with (call_Y c) in X.
        unfold call_nb in *. rewrite X in *. discriminate.
      + match goal with HX : pool_run cell3_eq _ ?l _ |- pool_run cell3_eq _ ?l' _ => replace l' with l; [exact HX|] end.
        apply map_ext_in. intros i Hi. apply in_seq in Hi. rewrite (E2 i ltac:(lia)), (HE i d0 ltac:(lia)), (EN i ltac:(lia)). reflexivity.
      + match goal with HX : pool_run binc_eq _ ?l _ |- pool_run binc_eq _ ?l' _ => replace l' with l; [exact HX|] end.
        apply map_ext_in. intros i Hi. apply in_seq in Hi. rewrite (E3 i ltac:(lia)), (EN i ltac:(lia)). reflexivity.
      + match goal with HX : pool_run celleq _ ?l _ |- _ => exact HX end.
  Qed.

  (** the first map, when all workers have a good [kth]: either the bins do not
      depend on it, or it is the right one *)
  Definition good_kth (c : mcall) (k : list nat) : Prop := String.prefix (c_bin c) "mass" = false \/ k = the_kth c.

  Lemma task_good c f k i : hist_task part c = Some f -> good_kth c k -> f k i = f (the_kth c) i.
  Proof.
    intros Hf [H| ->]; [|reflexivity]. rewrite !(task_edges c f _ i Hf). unfold edges_of. rewrite H. reflexivity.
  Qed.
  Lemma mapM_ext_in {A B} (f g : A -> result B) l : (forall a, In a l -> f a = g a) -> mapM f l = mapM g l.
  Proof.
    induction l as [|a l IH]; intros H; [reflexivity|]. cbn. rewrite (H a (or_introl eq_refl)), IH; [reflexivity|]. intros; apply H; now right.
  Qed.

  Lemma first_map c ws g g' ph : call_check c = Ok tt -> (forall w, In w ws -> good_kth c w) ->
    mstep vpow part c g (Fork1 ws) g' ph ->
    g' = g /\ ((exists r, ph = Done r /\ outcome c r) \/ ph = Fork1 (ws ++ [g_kth g]) \/
               exists h, ph = WriteH h /\ (1 <= call_workers c)%Z /\ the_hist c h).
  Proof.
    intros HC Hws H. destruct (check_ok c HC) as (EC & HN & HS & HP). inversion H; subst; (split; [reflexivity|]).
    - left. eexists. split; [reflexivity|]. apply out_raise. rewrite HP. replace (call_workers c <? 1)%Z with true by (symmetry; apply Z.ltb_lt; assumption). reflexivity.
    - right. left. reflexivity.
    - left. eexists. split; [reflexivity|]. apply out_raise. rewrite HP. destruct (call_workers c <? 1)%Z; [reflexivity|].
      match goal with HT : hist_task _ _ = None |- _ => unfold hist_task in HT end.
      destruct (String.prefix (c_bin c) "mass"); [discriminate|]. destruct (String.prefix (c_bin c) "range"); [discriminate|reflexivity].
    - left. eexists. split; [reflexivity|].
      match goal with HT : hist_task _ _ = Some _ |- _ => rename HT into Hf end.
      match goal with HT : f w i = Raise e |- _ => rename HT into Hr end. match goal with HT : In w ws |- _ => rename HT into Hw end.
      pose proof (task_error _ _ _ _ _ Hf Hr) as ->. rewrite (task_good c f w i Hf (Hws w Hw)) in Hr.
      apply out_raise. rewrite (prep_task c f HC ltac:(assumption) Hf).
      destruct (mapM_pair_raise (f (the_kth c)) (edges_of c (the_kth c)) (fun i e => hist e (coll (call_Y c) i)) (seq 0 (ncol (call_Y c)))
         (fun i => task_edges c f (the_kth c) i Hf) i ValueError) as (e' & E'); [apply in_seq; lia|exact Hr|].
      rewrite E'. f_equal. destruct (mapM_raise_in _ _ _ E') as (a & _ & Ea).
      apply (task_error c f (the_kth c) a). { exact Hf. } rewrite (task_edges c f _ a Hf), Ea. reflexivity.
    - right. right. exists h. split; [reflexivity|]. split; [assumption|].
      match goal with HT : hist_task _ _ = Some _ |- _ => rename HT into Hf end.
      exists f. split; [exact Hf|]. match goal with HT : mapM _ _ = Ok h |- _ => rewrite <- HT end. apply mapM_ext_in. intros i Hi. apply in_seq in Hi.
      symmetry. apply task_good; [exact Hf|]. apply (all_nth (good_kth c)); [exact Hws|]. match goal with HX : forall i, _ -> _ < length ws |- _ => apply HX end. lia.
  Qed.

  (** ** a call nobody disturbs *)
  Definition inv1 (c : mcall) (g : globals (V := V)) (ph : phase (V := V)) : Prop :=
    match ph with
    | Start => True
    | Test => call_check c = Ok tt /\ g_kth g = the_raw c
    | ReadK => call_check c = Ok tt /\ g_kth g = the_raw c /\ last (the_raw c) 0 <> nrow (call_Y c) - 1
    | WriteK k => call_check c = Ok tt /\ k = the_raw c /\ last (the_raw c) 0 <> nrow (call_Y c) - 1
    | Fork1 ws => call_check c = Ok tt /\ g_kth g = the_kth c /\ forall w, In w ws -> w = the_kth c
    | WriteH h => call_check c = Ok tt /\ (1 <= call_workers c)%Z /\ the_hist c h
    | Fork2 ws => call_check c = Ok tt /\ (1 <= call_workers c)%Z /\ the_hist c (g_hist g) /\ forall w, In w ws -> w = g_hist g
    | Done r => outcome c r
    end.

  Lemma inv1_step c g ph g' ph' : inv1 c g ph -> mstep vpow part c g ph g' ph' -> inv1 c g' ph'.
  Proof.
    intros I H. destruct ph as [| | |k|ws|h|ws|r].
    - inversion H; subst; cbn; [apply out_raise, check_raise; assumption|]. split; [assumption|reflexivity].
    - destruct I as (HC & HK). inversion H; subst; cbn.
      + split; [exact HC|]. split; [|intros w []]. rewrite kth_of_raw, <- HK. match goal with HL : last _ _ = _ |- _ => rewrite HL end. rewrite Nat.eqb_refl. reflexivity.
      + rewrite <- HK. auto.
    - destruct I as (HC & HK & HL). inversion H; subst; cbn. auto.
    - destruct I as (HC & -> & HL). inversion H; subst; cbn. split; [exact HC|]. split; [|intros w []].
      rewrite kth_of_raw. apply Nat.eqb_neq in HL. rewrite HL. reflexivity.
    - destruct I as (HC & HK & HW). destruct (first_map c ws g g' ph' HC) as (-> & [(r & -> & O)|[->|(h & -> & A & B)]]); [|exact H| | |]; cbn; auto.
      + intros w Hw. right. apply HW. exact Hw.
      + split; [exact HC|]. split; [exact HK|]. intros w Hw. apply in_app_or in Hw as [Hw|[<-|[]]]; auto.
    - destruct I as (HC & HW & HH). inversion H; subst; cbn. split; [exact HC|]. split; [exact HW|]. split; [exact HH|intros w []].
    - destruct I as (HC & HW & HH & Hws). destruct (finish c (g_hist g) ws g g' ph' HC HW HH Hws H) as [(r & -> & O)|(-> & ->)]; cbn; auto.
      split; [exact HC|]. split; [exact HW|]. split; [exact HH|]. intros w Hw. apply in_app_or in Hw as [Hw|[<-|[]]]; auto.
    - inversion H.
  Qed.
End One.
