(** mp_dissim called from several threads: schedules. *)
From Coq Require Import String.
From Coq Require Import ZArith List Arith Lia Bool.
From Verif Require Import Py Num Arr Sort Conc M_IO M_SNN M_MPDissim P_MPDissim P_MPDissim2 P_MPDissim4 P_ApproxANN M_MPThreads S_MPThreads P_MPThreads.
Import ListNotations.
Local Open Scope nat_scope.

Section Sched.
  Context {V : Type} {N : Num V}.
  Variable vpow : V -> V -> V.
  Variable part : list V -> list nat -> list V.
  Notation mcall := (mcall (V := V)).
  Notation globals := (globals (V := V)).
  Notation phase := (phase (V := V)).
  Notation mstep := (mstep vpow part).
  Notation ssteps := (ssteps vpow part).
  Notation one_by_one := (one_by_one vpow part).

  Lemma idle_inv c g g' ph : idle (c, ph) -> inv1 vpow part c g ph -> inv1 vpow part c g' ph.
  Proof. destruct ph; cbn; tauto. Qed.

  Lemma in_replace {A} (pre post : list A) x y z : In z (pre ++ y :: post) -> z = y \/ In z (pre ++ post) /\ In z (pre ++ x :: post).
  Proof. intros H. apply in_app_or in H as [H|[->|H]]; [right; split; apply in_or_app; now left|now left|]. right. split; apply in_or_app; right; [exact H|now right]. Qed.

  (** ** without overlap *)
  Lemma one_by_one_inv s0 s : one_by_one s0 s -> forall g cs, s0 = begin g cs ->
    forall c ph, In (c, ph) (snd s) -> inv1 vpow part c (fst s) ph.
  Proof.
    induction 1 as [s|s g g' pre c ph ph' post H IH HI HS]; intros g0 cs ->.
    - intros c ph Hin. cbn in Hin. apply in_map_iff in Hin as (c' & E & _). injection E as <- <-. exact I.
    - specialize (IH g0 cs eq_refl). cbn [fst snd] in *. intros c1 ph1 Hin.
      apply (in_replace _ _ (c, ph)) in Hin as [E|[Hin Hin2]].
      + injection E as -> ->. apply (inv1_step vpow part c g ph); [|exact HS]. apply IH. apply in_or_app. right. now left.
      + apply (idle_inv c1 g); [apply HI; exact Hin|]. apply IH. exact Hin2.
  Qed.

  (** ** the same bins *)
  Definition inv2 (c : mcall) (g : globals) (ph : phase) : Prop :=
    match ph with
    | Start => True
    | Test => call_check c = Ok tt /\ good_kth c (g_kth g)
    | ReadK => call_check c = Ok tt /\ String.prefix (c_bin c) "mass" = false
    | WriteK k => call_check c = Ok tt /\ String.prefix (c_bin c) "mass" = false
    | Fork1 ws => call_check c = Ok tt /\ good_kth c (g_kth g) /\ forall w, In w ws -> good_kth c w
    | WriteH h => call_check c = Ok tt /\ (1 <= call_workers c)%Z /\ the_hist part c h
    | Fork2 ws => call_check c = Ok tt /\ (1 <= call_workers c)%Z /\ the_hist part c (g_hist g) /\ forall w, In w ws -> the_hist part c w
    | Done r => outcome vpow part c r
    end.

  Lemma the_hist_fun (c : mcall) h h' : the_hist part c h -> the_hist part c h' -> h = h'.
  Proof. intros (f & Hf & E) (f' & Hf' & E'). rewrite Hf in Hf'. injection Hf' as <-. congruence. Qed.

  Lemma coll_eq2 (A B : arr2 V) i : eq2 A B -> i < ncol A -> coll A i = coll B i.
  Proof. intros (H1 & H2 & H3) Hi. unfold coll. rewrite <- H1. apply map_ext_in. intros j Hj. apply in_seq in Hj. apply H3; lia. Qed.

  Lemma same_kth (c c' : mcall) : same_bins c c' -> the_kth c = the_kth c' /\ the_raw c = the_raw c' /\ call_nb c = call_nb c'.
  Proof.
    intros ((H1 & H2 & H3) & Hb & _). unfold the_kth, the_raw, the_step, call_nb. rewrite H1, Hb. auto.
  Qed.
  Lemma same_hist (c c' : mcall) h : same_bins c c' -> the_hist part c h -> the_hist part c' h.
  Proof.
    intros S (f & Hf & HM). destruct (same_kth c c' S) as (K1 & _ & K3). destruct S as (HY & Hb & Hs).
    assert (exists f', hist_task part c' = Some f') as (f' & Hf').
    { unfold hist_task in *. rewrite <- Hs. destruct (String.prefix (c_bin c) "mass"); [eauto|]. destruct (String.prefix (c_bin c) "range"); [eauto|discriminate]. }
    exists f'. split; [exact Hf'|]. rewrite <- HM. pose proof HY as (_ & HCc & _). rewrite <- HCc. apply mapM_ext_in. intros i Hi. apply in_seq in Hi.
    rewrite (task_edges part c f _ i Hf), (task_edges part c' f' _ i Hf'). unfold edges_of. rewrite <- Hs, <- K1, <- K3, (coll_eq2 _ _ i HY) by lia. reflexivity.
  Qed.
  Lemma same_good (c c' : mcall) k : same_bins c c' -> good_kth c k -> good_kth c' k.
  Proof. intros S. destruct (same_kth c c' S) as (K1 & _). destruct S as (_ & _ & Hs). unfold good_kth. rewrite K1, Hs. tauto. Qed.

  (** bins that do not need line 237 *)
  Definition no_append (c : mcall) : Prop :=
    String.prefix (c_bin c) "mass" = false \/ (nrow (call_Y c) - 1) mod (nrow (call_Y c) / call_nb c) = 0.

  Lemma raw_last n s : 0 < s -> 0 < n -> (n - 1) mod s = 0 <-> last (raw_kth n s) 0 = n - 1.
  Proof.
    intros Hs Hn. unfold raw_kth. remember ((n + s - 1) / s) as t eqn:Et.
    assert (T : t * s <= n + s - 1 < t * s + s).
    { subst t. pose proof (Nat.div_mod (n + s - 1) s ltac:(lia)). pose proof (Nat.mod_upper_bound (n + s - 1) s ltac:(lia)). lia. }
    destruct t as [|t]; [cbn in T; lia|]. rewrite last_map_seq. cbn [Nat.mul] in T. split; intros H.
    - pose proof (Nat.div_mod (n - 1) s ltac:(lia)) as DM. rewrite H in DM. set (q := (n - 1) / s) in *. assert (q = t) by nia. subst t. lia.
    - rewrite <- H. apply Nat.mod_mul. lia.
  Qed.
  Lemma check_rows (c : mcall) : call_check c = Ok tt -> 0 < nrow (call_Y c).
  Proof.
    intros H. destruct (check_ok part c H) as (_ & Hn & Hs & _). unfold the_step, mpd_step in Hs.
    destruct (nrow (call_Y c)); [rewrite Nat.div_0_l in Hs; lia|lia].
  Qed.
  Lemma no_append_raw (c : mcall) : call_check c = Ok tt -> no_append c -> good_kth c (the_raw c).
  Proof.
    intros HC [H|H]; [now left|]. right. destruct (check_ok part c HC) as (_ & Hn & Hs & _). pose proof (check_rows c HC) as Hr.
    apply (raw_last (nrow (call_Y c)) (the_step c) Hs Hr) in H. rewrite kth_of_raw. unfold the_raw at 2 3.
    rewrite H, Nat.eqb_refl. reflexivity.
  Qed.
  Lemma good_last (c : mcall) k : call_check c = Ok tt -> good_kth c k -> last k 0 <> nrow (call_Y c) - 1 -> String.prefix (c_bin c) "mass" = false.
  Proof.
    intros HC [H| ->] HL; [exact H|]. exfalso. apply HL. rewrite kth_of_raw. destruct (Nat.eqb_spec (last (the_raw c) 0) (nrow (call_Y c) - 1)); [assumption|].
    apply last_snoc.
  Qed.

  (** the moving call keeps its invariant; what it writes suits every call with the same bins *)
  Lemma inv2_step c g ph g' ph' : no_append c -> inv2 c g ph -> mstep c g ph g' ph' ->
    inv2 c g' ph' /\ (g_kth g' = g_kth g \/ call_check c = Ok tt /\ good_kth c (g_kth g')) /\
    (g_hist g' = g_hist g \/ call_check c = Ok tt /\ the_hist part c (g_hist g')).
  Proof.
    intros NA I H. destruct ph as [| | |k|ws|h|ws|r].
    - inversion H; subst; cbn; [split; [apply out_raise, check_raise; assumption|auto]|].
      pose proof (no_append_raw c ltac:(assumption) NA) as G. auto.
    - destruct I as (HC & HK). inversion H; subst; cbn.
      + split; [|auto]. split; [exact HC|]. split; [exact HK|intros w []].
      + split; [|auto]. split; [exact HC|]. eapply good_last; eauto.
    - destruct I as (HC & HK). inversion H; subst; cbn. auto.
    - destruct I as (HC & HK). inversion H; subst; cbn. split; [|split; [right; split; [exact HC|left; exact HK]|auto]].
      split; [exact HC|]. split; [left; exact HK|intros w []].
    - destruct I as (HC & HK & HW). destruct (first_map vpow part c ws g g' ph' HC HW H) as (-> & [(r & -> & O)|[->|(h & -> & A & B)]]); cbn; auto.
      split; [|auto]. split; [exact HC|]. split; [exact HK|]. intros w Hw. apply in_app_or in Hw as [Hw|[<-|[]]]; auto.
    - destruct I as (HC & HW & HH). inversion H; subst; cbn. split; [|auto]. split; [exact HC|]. split; [exact HW|]. split; [exact HH|intros w []].
    - destruct I as (HC & HW & HH & Hws).
      assert (E : g' = g) by (inversion H; reflexivity). subst g'.
      destruct (finish vpow part c (g_hist g) ws g g ph' HC HW HH) as [(r & -> & O)|(_ & ->)]; [|exact H| |]; cbn; auto.
      + intros w Hw. exact (the_hist_fun c _ _ (Hws w Hw) HH).
      + split; [|auto]. split; [exact HC|]. split; [exact HW|]. split; [exact HH|]. intros w Hw. apply in_app_or in Hw as [Hw|[<-|[]]]; auto.
    - inversion H.
  Qed.

  Lemma inv2_other (c c1 : mcall) g g' ph1 : same_bins c c1 -> inv2 c1 g ph1 ->
    (g_kth g' = g_kth g \/ call_check c = Ok tt /\ good_kth c (g_kth g')) ->
    (g_hist g' = g_hist g \/ call_check c = Ok tt /\ the_hist part c (g_hist g')) -> inv2 c1 g' ph1.
  Proof.
    intros S I HK HH.
    assert (K : good_kth c1 (g_kth g) -> good_kth c1 (g_kth g')).
    { destruct HK as [->|[_ HK]]; [auto|]. intros _. exact (same_good c c1 _ S HK). }
    assert (HX : the_hist part c1 (g_hist g) -> the_hist part c1 (g_hist g')).
    { destruct HH as [->|[_ HH]]; [auto|]. intros _. exact (same_hist c c1 _ S HH). }
    destruct ph1; cbn in *; try tauto.
  Qed.

  Lemma same_bins_inv s0 s : ssteps s0 s -> forall g cs, s0 = begin g cs ->
    (forall c c', In c cs -> In c' cs -> same_bins c c') -> (forall c, In c cs -> no_append c) ->
    (forall c ph, In (c, ph) (snd s) -> In c cs) /\ forall c ph, In (c, ph) (snd s) -> inv2 c (fst s) ph.
  Proof.
    induction 1 as [s|s s' s'' H IH HS]; intros g0 cs -> SB NA.
    - cbn. split; intros c ph Hin; apply in_map_iff in Hin as (c' & E & Hc); injection E as <- <-; [exact Hc|exact I].
    - destruct (IH g0 cs eq_refl SB NA) as [I1 I2]. destruct HS as [g g' pre c ph ph' post HM]. cbn [fst snd] in *.
      assert (Hc : In (c, ph) (pre ++ (c, ph) :: post)) by (apply in_or_app; right; now left).
      pose proof (I1 c ph Hc) as Hcs. destruct (inv2_step c g ph g' ph' (NA c Hcs) (I2 c ph Hc) HM) as (J1 & J2 & J3).
      split; intros c1 ph1 Hin; apply (in_replace _ _ (c, ph)) in Hin as [E|[_ Hin]].
      + injection E as -> ->. exact Hcs.
      + exact (I1 _ _ Hin).
      + injection E as -> ->. exact J1.
      + apply (inv2_other c c1 g); auto. apply SB; [exact Hcs|]. exact (I1 _ _ Hin).
  Qed.

  (** ** runs of one call *)
  Inductive msteps (c : mcall) : globals -> phase -> globals -> phase -> Prop :=
  | mm_refl g ph : msteps c g ph g ph
  | mm_step g ph g' ph' g'' ph'' : mstep c g ph g' ph' -> msteps c g' ph' g'' ph'' -> msteps c g ph g'' ph''.
  Lemma msteps_trans c g ph g' ph' g'' ph'' : msteps c g ph g' ph' -> msteps c g' ph' g'' ph'' -> msteps c g ph g'' ph''.
  Proof. induction 1; auto. intros. econstructor; eauto. Qed.
  Lemma ssteps_trans s s' s'' : ssteps s s' -> ssteps s' s'' -> ssteps s s''.
  Proof. intros H1 H2. induction H2 as [|a b c H IH HS]; [exact H1|]. eapply st_step; [apply IH; exact H1|exact HS]. Qed.

  Lemma msteps_sys c g ph g' ph' pre post : msteps c g ph g' ph' -> ssteps (g, pre ++ (c, ph) :: post) (g', pre ++ (c, ph') :: post).
  Proof.
    induction 1; [constructor|]. eapply ssteps_trans; [|exact IHmsteps]. eapply st_step; [constructor|]. constructor. exact H.
  Qed.
  Lemma one_by_one_trans s s' s'' : one_by_one s s' -> one_by_one s' s'' -> one_by_one s s''.
  Proof. intros H1 H2. induction H2 as [|t g g' pre c ph ph' post H IH HI HS]; [exact H1|]. eapply ob_step; [apply IH; exact H1|exact HI|exact HS]. Qed.
  Lemma msteps_one c g ph g' ph' pre post : (forall x, In x (pre ++ post) -> idle x) -> msteps c g ph g' ph' ->
    one_by_one (g, pre ++ (c, ph) :: post) (g', pre ++ (c, ph') :: post).
  Proof.
    intros HI. induction 1; [constructor|]. eapply one_by_one_trans; [|exact IHmsteps]. eapply ob_step; [constructor|exact HI|]. exact H.
  Qed.

  Lemma forks1 c g n ws : (Z.of_nat (length ws + n) <= call_workers c)%Z -> msteps c g (Fork1 ws) g (Fork1 (ws ++ repeat (g_kth g) n)).
  Proof.
    revert ws. induction n as [|n IH]; intros ws H; cbn [repeat]; [rewrite app_nil_r; constructor|].
    eapply mm_step; [apply ms_fork1; lia|]. change (g_kth g :: repeat (g_kth g) n) with ([g_kth g] ++ repeat (g_kth g) n).
    rewrite app_assoc. apply IH. rewrite app_length. cbn [length]. lia.
  Qed.
  Lemma forks2 c g n ws : (Z.of_nat (length ws + n) <= call_workers c)%Z -> msteps c g (Fork2 ws) g (Fork2 (ws ++ repeat (g_hist g) n)).
  Proof.
    revert ws. induction n as [|n IH]; intros ws H; cbn [repeat]; [rewrite app_nil_r; constructor|].
    eapply mm_step; [apply ms_fork2; lia|]. change (g_hist g :: repeat (g_hist g) n) with ([g_hist g] ++ repeat (g_hist g) n).
    rewrite app_assoc. apply IH. rewrite app_length. cbn [length]. lia.
  Qed.
  Lemma fork1_all c g : (1 <= call_workers c)%Z -> msteps c g (Fork1 []) g (Fork1 (repeat (g_kth g) (Z.to_nat (call_workers c)))).
  Proof. intros H. apply (forks1 c g (Z.to_nat (call_workers c)) []). cbn. lia. Qed.
  Lemma fork2_all c g : (1 <= call_workers c)%Z -> msteps c g (Fork2 []) g (Fork2 (repeat (g_hist g) (Z.to_nat (call_workers c)))).
  Proof. intros H. apply (forks2 c g (Z.to_nat (call_workers c)) []). cbn. lia. Qed.
  Lemma repeat_nth0 {A} (x d : A) n : 0 < n -> nth 0 (repeat x n) d = x.
  Proof. destruct n; cbn; [lia|reflexivity]. Qed.

  (** to the first pool *)
  Lemma to_fork1 c g : call_check c = Ok tt -> exists g', msteps c g Start g' (Fork1 []) /\ g_kth g' = the_kth c.
  Proof.
    intros HC. set (g1 := Globals (the_raw c) (g_hist g)).
    destruct (Nat.eq_dec (last (the_raw c) 0) (nrow (call_Y c) - 1)) as [E|E].
    - exists g1. split.
      + eapply mm_step; [apply ms_kth; exact HC|]. eapply mm_step; [apply ms_last; exact E|]. constructor.
      + rewrite kth_of_raw, E, Nat.eqb_refl. reflexivity.
    - exists (Globals (the_raw c ++ [nrow (call_Y c) - 1]) (g_hist g)). split.
      + eapply mm_step; [apply ms_kth; exact HC|]. eapply mm_step; [apply ms_not_last; exact E|]. eapply mm_step; [apply ms_read|].
        eapply mm_step; [apply ms_write|]. constructor.
      + rewrite kth_of_raw. apply Nat.eqb_neq in E. rewrite E. reflexivity.
  Qed.
  (** past the first pool *)
  Lemma map1_run c g f ws h : (1 <= call_workers c)%Z -> ws = repeat (g_kth g) (Z.to_nat (call_workers c)) -> hist_task part c = Some f ->
    mapM (fun i => f (g_kth g) i) (seq 0 (ncol (call_Y c))) = Ok h -> mstep c g (Fork1 ws) g (WriteH h).
  Proof.
    intros HW -> Hf HM. assert (L : length (repeat (g_kth g) (Z.to_nat (call_workers c))) = Z.to_nat (call_workers c)) by apply repeat_length.
    apply (ms_map1 vpow part c g _ f (fun _ => 0)); auto; [lia|intros; lia|].
    rewrite <- HM. apply mapM_ext_in. intros i _. rewrite repeat_nth0 by lia. reflexivity.
  Qed.
  Lemma to_fork2 c g h : call_check c = Ok tt -> (1 <= call_workers c)%Z -> the_hist part c h ->
    exists g', msteps c g Start g' (Fork2 []) /\ g_hist g' = h.
  Proof.
    intros HC HW (f & Hf & HM). destruct (to_fork1 c g HC) as (g1 & M1 & K1).
    exists (Globals (g_kth g1) h). split; [|reflexivity].
    eapply msteps_trans; [exact M1|]. eapply msteps_trans; [apply fork1_all; exact HW|].
    eapply mm_step; [apply (map1_run c g1 f _ h HW eq_refl Hf); rewrite K1; exact HM|].
    eapply mm_step; [apply ms_hist|]. constructor.
  Qed.

  (** every outcome of a single call is an outcome of an undisturbed one *)
  Lemma outcome_runs c g r : outcome vpow part c r -> exists g', msteps c g Start g' (Done r).
  Proof.
    intros H. destruct (call_check c) as [[]|e] eqn:HC.
    2:{ pose proof (check_raise part c e HC) as HP. apply mpd_outcome in H. cbn zeta in H. unfold prep in HP.
        change (arg2 (c_X c) (c_Y c)) with (call_Y c) in H. rewrite HP in H. subst r.
        exists g. eapply mm_step; [apply ms_reject; exact HC|]. constructor. }
    destruct (check_ok part c HC) as (EC & HN & HS & HP).
    pose proof H as H'. apply mpd_outcome in H'. cbn zeta in H'. change (arg2 (c_X c) (c_Y c)) with (call_Y c) in H'.
    change (mpd_prepare part (c_X c) (call_Y c) (c_bins c) (c_bin c) (c_jobs c) (c_cpus c)) with (prep part c) in H'.
    destruct (to_fork1 c g HC) as (g1 & M1 & K1).
    destruct (Z.ltb_spec (call_workers c) 1) as [W|W].
    { rewrite HP in H'. subst r. exists g1. eapply msteps_trans; [exact M1|]. eapply mm_step; [apply ms_no_pool; exact W|]. constructor. }
    pose proof (fork1_all c g1 W) as M2. set (n := Z.to_nat (call_workers c)) in *.
    assert (L1 : Z.of_nat (length (repeat (g_kth g1) n)) = call_workers c) by (rewrite repeat_length; lia).
    destruct (hist_task part c) as [f|] eqn:Hf.
    2:{ exists g1. eapply msteps_trans; [exact M1|]. eapply msteps_trans; [exact M2|].
        assert (E : prep part c = Raise ValueError).
        { rewrite HP. unfold hist_task in Hf. destruct (String.prefix (c_bin c) "mass"); [discriminate|]. destruct (String.prefix (c_bin c) "range"); [discriminate|reflexivity]. }
        rewrite E in H'. subst r. eapply mm_step; [apply ms_bad_bin; auto|]. constructor. }
    destruct (mapM (fun i => f (the_kth c) i) (seq 0 (ncol (call_Y c)))) as [h|e] eqn:HM.
    2:{ destruct (mapM_raise_in _ _ _ HM) as (i & Hi & Ei). apply in_seq in Hi. pose proof (task_error part c f _ i e Hf Ei) as ->.
        rewrite (prep_task part c f HC W Hf) in H'.
        destruct (mapM_pair_raise (f (the_kth c)) (edges_of part c (the_kth c)) (fun i e => hist e (coll (call_Y c) i)) (seq 0 (ncol (call_Y c)))
           (fun i => task_edges part c f (the_kth c) i Hf) i ValueError) as (e' & E'); [apply in_seq; lia|exact Ei|].
        rewrite E' in H'. subst r. destruct (mapM_raise_in _ _ _ E') as (a & _ & Ea).
        assert (e' = ValueError) as ->. { apply (task_error part c f (the_kth c) a _ Hf). rewrite (task_edges part c f _ a Hf), Ea. reflexivity. }
        exists g1. eapply msteps_trans; [exact M1|]. eapply msteps_trans; [exact M2|].
        eapply mm_step; [apply (ms_map1_fail vpow part c g1 _ f i (the_kth c) ValueError W L1 Hf); [lia| |exact Ei]|constructor].
        rewrite K1. destruct n eqn:En; [lia|]. now left. }
    assert (HH : the_hist part c h) by (exists f; auto).
    destruct (the_hist_prep part c h HC W HH) as (HPE & HL & HE). rewrite HPE in H'.
    destruct (to_fork2 c g h HC W HH) as (g2 & M3 & K2). pose proof (fork2_all c g2 W) as M4. fold n in M4. rewrite K2 in M4.
    assert (L2 : Z.of_nat (length (repeat h n)) = call_workers c) by (rewrite repeat_length; lia).
    assert (I2 : In h (repeat h n)) by (destruct n eqn:En; [lia|now left]).
    assert (N0 : nth 0 (repeat h n) [] = h) by (apply repeat_nth0; lia).
    set (d0 := (@nil nat, @nil V)).
    assert (OH : forall i, i < ncol (c_X c) -> own_hist h i = Ok (nth i h d0)).
    { intros i Hi. unfold own_hist. rewrite (same_len_nth h i d0) by lia. reflexivity. }
    assert (EN : forall i, i < ncol (c_X c) -> snd (nth i h d0) = nth i (map snd h) []).
    { intros i Hi. change (@nil V) with (snd d0). rewrite map_nth. reflexivity. }
    assert (FT : forall i, i < ncol (c_X c) -> fit_task (call_nb c) h i = guard (negb (hist_fits (call_nb c) (hist (nth i (map snd h) []) (coll (call_Y c) i)))) ValueError).
    { intros i Hi. unfold fit_task. rewrite (OH i Hi). cbn [bind]. rewrite (HE i d0 Hi), (EN i Hi). reflexivity. }
    exists g2. eapply msteps_trans; [exact M3|]. eapply msteps_trans; [exact M4|].
    destruct (fit_all (Z.to_nat (c_bins c)) (ncol (c_X c)) (call_Y c) (map snd h)) eqn:F.
    - destruct H' as (D & -> & out & -> & Rb & bb & P1 & P2 & P3). eapply mm_step; [|constructor].
      apply (ms_map2 vpow part c g2 (repeat h n) (fun _ => 0) (fun _ => 0) (fun i => nth i h d0) (fun i => nth i h d0) Rb bb out); auto.
      + intros; lia.
      + intros; lia.
      + intros i Hi. rewrite N0. auto.
      + intros i Hi. rewrite N0, (FT i Hi). unfold fit_all in F. apply negb_true_iff in F.
        destruct (hist_fits (call_nb c) (hist (nth i (map snd h) []) (coll (call_Y c) i))) eqn:X; [reflexivity|]. exfalso.
        assert (G : existsb (fun i => negb (hist_fits (Z.to_nat (c_bins c)) (hist (nth i (map snd h) []) (coll (call_Y c) i)))) (seq 0 (ncol (c_X c))) = true).
        { apply existsb_exists. exists i. split; [apply in_seq; lia|]. unfold call_nb in X. rewrite X. reflexivity. }
        rewrite G in F. discriminate.
      + intros i Hi. rewrite N0. auto.
      + match goal with HX : pool_run cell3_eq _ ?l _ |- pool_run cell3_eq _ ?l' _ => replace l' with l; [exact HX|] end.
        apply map_ext_in. intros i Hi. apply in_seq in Hi. rewrite (HE i d0 ltac:(lia)), (EN i ltac:(lia)). reflexivity.
      + match goal with HX : pool_run binc_eq _ ?l _ |- pool_run binc_eq _ ?l' _ => replace l' with l; [exact HX|] end.
        apply map_ext_in. intros i Hi. apply in_seq in Hi. rewrite (EN i ltac:(lia)). reflexivity.
    - subst r. unfold fit_all in F. apply negb_false_iff in F. apply existsb_exists in F as (i & Hi & F). apply in_seq in Hi.
      eapply mm_step; [apply (ms_map2_fail vpow part c g2 (repeat h n) i h ValueError L2); [lia|exact I2|]|constructor].
      rewrite FT by lia. unfold call_nb. rewrite F. reflexivity.
  Qed.
End Sched.
