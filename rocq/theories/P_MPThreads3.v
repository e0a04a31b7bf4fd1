(** mp_dissim called from several threads: schedules that go wrong. *)
From Coq Require Import String.
From Coq Require Import ZArith Reals Lra Lia List Arith Bool.
From Verif Require Import Py Num NumT NumPow Arr Sort Conc S_Centering M_IO M_SNN M_MPDissim S_MPDissim P_Vec P_DSL P_MPDissim P_MPDissim2 P_MPDissim3 P_MPDissim4 P_ApproxANN M_MPThreads S_MPThreads P_MPThreads P_MPThreads2.
Import ListNotations.
Local Open Scope nat_scope.

Section Gen.
  Context {V : Type} {N : Num V}.
  Variable vpow : V -> V -> V.
  Variable part : list V -> list nat -> list V.
  Notation mcall := (mcall (V := V)).

  (** a cell of the result of a call whose workers use the histograms [h] *)
  Definition cell_with (c : mcall) (h : list (histo (V := V))) (x y : nat) : V :=
    mpd_cell vpow (fun i b c => R_of (fst (nth i h ([], []))) b c)
      (fun i x => mpd_bin (call_nb c) (snd (nth i h ([], []))) (at2 (c_X c) x i))
      (fun i y => mpd_bin (call_nb c) (snd (nth i h ([], []))) (at2 (call_Y c) y i))
      (ncol (c_X c)) (nrow (c_X c) + nrow (call_Y c)) (mpd_p (c_p c)) x y.

  Lemma end_run (c : mcall) g h : (1 <= call_workers c)%Z -> 0 < call_nb c -> g_hist g = h -> ncol (c_X c) <= length h ->
    (forall i, i < ncol (c_X c) -> length (fst (nth i h ([], []))) = call_nb c) ->
    exists D, msteps vpow part c g (Fork2 []) g (Done (Ok D)) /\ eq2 D (Arr2 (nrow (c_X c)) (nrow (call_Y c)) (cell_with c h)).
  Proof.
    intros W Pos HG HL HF. set (n := Z.to_nat (call_workers c)). pose proof (fork2_all vpow part c g W) as M. fold n in M. rewrite HG in M.
    assert (L2 : Z.of_nat (length (repeat h n)) = call_workers c) by (rewrite repeat_length; lia).
    assert (N0 : nth 0 (repeat h n) [] = h) by (apply repeat_nth0; lia).
    set (d0 := (@nil nat, @nil V)) in *.
    assert (OH : forall i, i < ncol (c_X c) -> own_hist h i = Ok (nth i h d0)).
    { intros i Hi. unfold own_hist. rewrite (same_len_nth h i d0) by lia. reflexivity. }
    pose proof (pool_run_exists cell3_eq (fun _ => 0) (map (fun i => r_task (call_nb c) (fst (nth i h d0)) i) (seq 0 (ncol (c_X c))))) as P1. set (Rb := run_serial cell3_eq _ _) in P1. clearbody Rb.
    pose proof (pool_run_exists binc_eq (fun _ => 0) (map (fun i => bin_task (call_nb c) (c_X c) (call_Y c) (snd (nth i h d0)) i) (seq 0 (ncol (c_X c))))) as P2. set (bb := run_serial binc_eq _ _) in P2. clearbody bb.
    pose proof (pool_run_exists celleq (fun _ => n0) (map (mpd_task vpow (fun i b c => Rb (i, (b, c))) (fun i x => bb (true, (i, x))) (fun i y => bb (false, (i, y)))
                (ncol (c_X c)) (nrow (c_X c) + nrow (call_Y c)) (nrow (call_Y c)) (mpd_p (c_p c))) (seq 0 (nrow (c_X c))))) as P3. set (out := run_serial celleq _ _) in P3. clearbody out.
    exists (Arr2 (nrow (c_X c)) (nrow (call_Y c)) (fun x y => out (x, y))). split.
    - eapply msteps_trans; [exact M|]. eapply mm_step; [|constructor].
      apply (ms_map2 vpow part c g (repeat h n) (fun _ => 0) (fun _ => 0) (fun i => nth i h d0) (fun i => nth i h d0) Rb bb out); auto.
      + intros; lia.
      + intros; lia.
      + intros i Hi. rewrite N0. auto.
      + intros i Hi. rewrite N0. unfold fit_task. rewrite (OH i Hi). cbn [bind].
        rewrite (proj2 (hist_fits_iff _ _ Pos) (HF i Hi)). reflexivity.
      + intros i Hi. rewrite N0. auto.
    - split; [reflexivity|]. split; [reflexivity|]. cbn [nrow ncol at2]. intros x y Hx Hy.
      pose proof (r_pool _ _ (fun i => fst (nth i h d0)) _ P1) as R1.
      pose proof (bin_pool _ _ _ _ (fun i => snd (nth i h d0)) _ P2) as R2. cbn beta in R1, R2.
      set (f := fun c' : nat * nat => mpd_cell vpow (fun i b c => Rb (i, (b, c))) (fun i x => bb (true, (i, x))) (fun i y => bb (false, (i, y)))
                (ncol (c_X c)) (nrow (c_X c) + nrow (call_Y c)) (mpd_p (c_p c)) (fst c') (snd c')) in *.
      assert (FF : forall t (c' : nat * nat) v, In t (map (mpd_task vpow (fun i b c => Rb (i, (b, c))) (fun i x => bb (true, (i, x))) (fun i y => bb (false, (i, y)))
                (ncol (c_X c)) (nrow (c_X c) + nrow (call_Y c)) (nrow (call_Y c)) (mpd_p (c_p c))) (seq 0 (nrow (c_X c)))) -> In (c', v) t -> v = f c').
      { intros t c' v Ht Hc. apply in_map_iff in Ht as (i & <- & _). apply in_map_iff in Hc as (j & Ej & _). injection Ej as <- <-. reflexivity. }
      destruct (pool_run_fun celleq celleq_spec _ _ _ f FF P3 (x, y)) as (A & _).
      rewrite A.
      2:{ eexists. split; [apply in_map_iff; exists x; split; [reflexivity|apply in_seq; lia]|].
          apply in_map_iff. exists y. split; [reflexivity|apply in_seq; lia]. }
      unfold f, cell_with, mpd_cell. cbn [fst snd]. f_equal. f_equal. apply fold_ext_in. intros a i Hi. apply in_seq in Hi.
      destruct (R2 i ltac:(lia)) as [RX RY]. rewrite RX, RY by assumption. rewrite R1 by (try apply mpd_bin_lt; lia || assumption). reflexivity.
  Qed.

  (** ** two calls that both append the last position *)
  (** a call whose workers are forked with the last position twice fails *)
  Lemma append_fail (c : mcall) K l g : String.prefix (c_bin c) "mass" = true -> (1 <= call_workers c)%Z -> 0 < call_nb c -> ncol (c_X c) = ncol (call_Y c) -> 0 < ncol (c_X c) ->
    l = nrow (call_Y c) - 1 -> 0 < nrow (call_Y c) -> K = the_kth c ++ [l] ->
    (exists E, mapM (fun i => mass_edges part (the_kth c) (coll (call_Y c) i)) (seq 0 (ncol (call_Y c))) = Ok E /\ forall i, i < ncol (c_X c) -> length (nth i E []) = S (call_nb c)) ->
    g_kth g = K -> exists g', msteps vpow part c g (Fork1 []) g' (Done (Raise ValueError)) /\ g_kth g' = K.
  Proof.
    intros HM W HN EC Hd HLast HR HK (E & HE & LE) HG.
      set (f := fun kth i => bind (mass_edges part kth (coll (call_Y c) i)) (fun e => Ok (hist e (coll (call_Y c) i), e))).
      assert (Hf : hist_task part c = Some f) by (unfold hist_task; rewrite HM; reflexivity).
      assert (KL : forall i, i < ncol (call_Y c) -> exists e, mass_edges part K (coll (call_Y c) i) = Ok e /\ length e = S (S (call_nb c))).
      { intros i Hi. destruct (mapM_ok_nth _ _ _ (@nil V) HE) as [_ Q]. specialize (Q i 0). rewrite seq_length in Q. specialize (Q Hi). rewrite seq_nth in Q by exact Hi. cbn [Nat.add] in Q.
        specialize (LE i ltac:(lia)). unfold mass_edges, np_partition in *. rewrite HK, map_app.
        destruct (kth_legal (length (coll (call_Y c) i)) (map Z.of_nat (the_kth c))) eqn:KG; [|discriminate].
        assert (KG2 : kth_legal (length (coll (call_Y c) i)) (map Z.of_nat (the_kth c) ++ map Z.of_nat [l]) = true).
        { unfold kth_legal in *. rewrite forallb_app, KG. cbn. rewrite coll_length. rewrite andb_true_iff, andb_true_iff, Z.leb_le, Z.ltb_lt. lia. }
        rewrite KG2. cbn [bind]. eexists. split; [reflexivity|]. cbn [bind] in Q. injection Q as Q. rewrite <- Q in LE. unfold take in *. rewrite map_length in *. rewrite app_length. cbn [length]. lia. }
      destruct (mapM_build (fun i => f K i) (seq 0 (ncol (call_Y c)))) as (h & Hh).
      { intros i Hi. apply in_seq in Hi. destruct (KL i ltac:(lia)) as (e & He & _). unfold f. rewrite He. eexists. reflexivity. }
      set (g2 := Globals K h). exists g2. split; [|reflexivity].
      eapply msteps_trans; [apply fork1_all; exact W|]. eapply mm_step; [apply (map1_run vpow part c g f _ h W eq_refl Hf); rewrite HG; exact Hh|].
      eapply mm_step; [apply ms_hist|]. rewrite HG. fold g2.
      eapply msteps_trans; [apply fork2_all; exact W|]. eapply mm_step; [|constructor].
      apply (ms_map2_fail vpow part c g2 _ 0 h ValueError).
      - rewrite repeat_length. lia.
      - exact Hd.
      - destruct (Z.to_nat (call_workers c)) eqn:X; [lia|]. now left.
      - pose proof (mapM_length _ _ _ Hh) as LL. rewrite seq_length in LL. destruct (mapM_ok_nth _ _ _ (@nil nat, @nil V) Hh) as [_ Q].
        specialize (Q 0 0). rewrite seq_length in Q. specialize (Q ltac:(lia)). rewrite seq_nth in Q by lia. cbn [Nat.add] in Q.
        destruct (KL 0 ltac:(lia)) as (e & He & Le). unfold f in Q. rewrite He in Q. cbn [bind] in Q. injection Q as Q.
        unfold fit_task, own_hist, histo. rewrite (same_len_nth h 0 ([], [])) by lia. rewrite <- Q. cbn [bind fst].
        destruct (hist_fits (call_nb c) (hist e (coll (call_Y c) 0))) eqn:F; [|reflexivity]. exfalso.
        apply hist_fits_iff in F; [|exact HN]. rewrite hist_len in F. lia. 
  Qed.

  Lemma double_append (c c' : mcall) g D D' : outcome vpow part c (Ok D) -> outcome vpow part c' (Ok D') ->
    nrow (call_Y c) = nrow (call_Y c') -> c_bins c = c_bins c' ->
    String.prefix (c_bin c) "mass" = true -> String.prefix (c_bin c') "mass" = true ->
    0 < ncol (c_X c) -> 0 < ncol (c_X c') ->
    (nrow (call_Y c) - 1) mod (nrow (call_Y c) / call_nb c) <> 0 ->
    exists g', ssteps vpow part (begin g [c; c']) (g', [(c, Done (Raise ValueError)); (c', Done (Raise ValueError))]).
  Proof.
    intros O O' HR HB HM HM' Hd Hd' ND.
    assert (ACC : forall c D, outcome vpow part c (Ok D) -> String.prefix (c_bin c) "mass" = true ->
      call_check c = Ok tt /\ (1 <= call_workers c)%Z /\ exists E, mapM (fun i => mass_edges part (the_kth c) (coll (call_Y c) i)) (seq 0 (ncol (call_Y c))) = Ok E /\
        forall i, i < ncol (c_X c) -> length (nth i E []) = S (call_nb c)).
    { clear. intros c D O HM. destruct (call_check c) as [[]|e] eqn:HC.
      2:{ apply mpd_ok_value in O as (E & HP & _). pose proof (check_raise part c e HC) as X. unfold prep, call_Y in X. unfold arg2 in HP. congruence. }
      split; [reflexivity|]. destruct (check_ok part c HC) as (EC & HN & HS & HP). apply mpd_ok_value in O as (E & HE & HF & _).
      change (mpd_prepare part (c_X c) (arg2 (c_X c) (c_Y c)) (c_bins c) (c_bin c) (c_jobs c) (c_cpus c)) with (prep part c) in HE.
      rewrite HE in HP. destruct (Z.ltb_spec (call_workers c) 1) as [W|W]; [discriminate|]. split; [exact W|]. rewrite HM in HP. exists E. split; [symmetry; exact HP|].
      intros i Hi. unfold fit_all in HF. apply negb_true_iff in HF.
      assert (F : hist_fits (call_nb c) (hist (nth i E []) (coll (call_Y c) i)) = true).
      { destruct (hist_fits _ _) eqn:X; [reflexivity|]. exfalso. rewrite <- not_true_iff_false in HF. apply HF. apply existsb_exists. exists i.
        split; [apply in_seq; lia|]. apply negb_true_iff. exact X. }
      apply hist_fits_iff in F; [|exact HN]. rewrite hist_len in F. lia. }
    destruct (ACC c D O HM) as (HC & W & E & HE & LE). destruct (ACC c' D' O' HM') as (HC' & W' & E' & HE' & LE'). clear ACC.
    assert (RW : the_raw c = the_raw c'). { unfold the_raw, the_step, call_nb. rewrite HR, HB. reflexivity. }
    destruct (check_ok part c HC) as (EC & HN & HS & _). destruct (check_ok part c' HC') as (EC' & HN' & HS' & _).
    assert (NL : last (the_raw c) 0 <> nrow (call_Y c) - 1).
    { intros X. apply ND. apply (raw_last (nrow (call_Y c)) (the_step c) HS (check_rows part c HC)). exact X. }
    assert (NL' : last (the_raw c') 0 <> nrow (call_Y c') - 1) by (rewrite <- RW, <- HR; exact NL).
    set (l := nrow (call_Y c) - 1) in *. set (K := (the_raw c ++ [l]) ++ [l]).
    assert (TK : the_kth c = the_raw c ++ [l]). { rewrite kth_of_raw. apply Nat.eqb_neq in NL. fold l. rewrite NL. reflexivity. }
    assert (TK' : the_kth c' = the_raw c ++ [l]). { rewrite kth_of_raw. apply Nat.eqb_neq in NL'. rewrite <- RW, <- HR. fold l. rewrite <- RW, <- HR in NL'. fold l in NL'. rewrite NL'. reflexivity. }
    set (g1 := Globals (the_raw c) (g_hist g)).
    set (g3 := Globals (the_raw c ++ [l]) (g_hist g)). set (g4 := Globals K (g_hist g)).
    assert (S1 : ssteps vpow part (begin g [c; c']) (g4, [(c, Fork1 []); (c', Fork1 [])])).
    { apply (ssteps_trans vpow part _ (g1, [(c, ReadK); (c', Start)])).
      { apply (msteps_sys vpow part c g Start g1 ReadK [] [(c', Start)]).
        eapply mm_step; [apply ms_kth; exact HC|]. eapply mm_step; [apply ms_not_last; exact NL|constructor]. }
      apply (ssteps_trans vpow part _ (g1, [(c, ReadK); (c', ReadK)])).
      { apply (msteps_sys vpow part c' g1 Start g1 ReadK [(c, ReadK)] []).
        eapply mm_step; [apply ms_kth; exact HC'|]. fold (the_step c'). fold (the_raw c'). rewrite <- RW. cbn [g_hist g1]. fold g1.
        eapply mm_step; [apply ms_not_last; cbn [g_kth g1]; rewrite RW; exact NL'|constructor]. }
      apply (ssteps_trans vpow part _ (g3, [(c, Fork1 []); (c', ReadK)])).
      { apply (msteps_sys vpow part c g1 ReadK g3 (Fork1 []) [] [(c', ReadK)]).
        eapply mm_step; [apply ms_read|]. eapply mm_step; [apply ms_write|]. constructor. }
      apply (msteps_sys vpow part c' g3 ReadK g4 (Fork1 []) [(c, Fork1 [])] []).
      eapply mm_step; [apply ms_read|]. eapply mm_step; [apply ms_write|]. rewrite <- HR. constructor. }
    assert (HK1 : K = the_kth c ++ [l]) by (unfold K; rewrite TK; reflexivity).
    assert (HK2 : K = the_kth c' ++ [l]) by (unfold K; rewrite TK'; reflexivity).
    destruct (append_fail c K l g4 HM W HN EC Hd eq_refl (check_rows part c HC) HK1 ltac:(eauto) eq_refl) as (g5 & M5 & K5).
    destruct (append_fail c' K l g5 HM' W' HN' EC' Hd' ltac:(rewrite <- HR; reflexivity) (check_rows part c' HC') HK2 ltac:(eauto) K5) as (g6 & M6 & _).
    exists g6. eapply ssteps_trans; [exact S1|]. eapply ssteps_trans; [exact (msteps_sys vpow part c g4 (Fork1 []) g5 _ [] [(c', Fork1 [])] M5)|].
    exact (msteps_sys vpow part c' g5 (Fork1 []) g6 _ [(c, Done (Raise ValueError))] [] M6).
  Qed.
End Gen.

(** ** the histograms of other data *)
Lemma cell_value (c : mcall (V := xr)) h nx ny d x y p nb (col seps : nat -> list R) lo hi i j :
  c_X c = rmat nx d x -> call_Y c = rmat ny d y -> c_p c = XFin p -> call_nb c = nb ->
  (0 <= p)%R -> 0 < d -> i < nx -> j < ny -> 0 < nb ->
  (forall f, f < d -> nth f h ([], []) = (hist (XFin (lo f) :: map XFin (seps f) ++ [XFin (hi f)]) (map XFin (col f)), XFin (lo f) :: map XFin (seps f) ++ [XFin (hi f)]) /\
     length (seps f) = nb - 1 /\ redges_ok (lo f) (seps f) (hi f) /\ forall w, In w (col f) -> (lo f <= w <= hi f)%R) ->
  cell_with xpow c h i j = XFin (mp_formula d (nx + ny) (eff_p p) (fun f => massR (seps f) (col f) (x i f) (y j f))).
Proof.
  intros EX EY Ep En Hp Hd Hi Hj Hnb HE. unfold cell_with, mpd_cell. unfold histo in *. rewrite EX, EY, Ep, En, mpd_p_x. cbn [ncol nrow rmat].
  pose proof (eff_p_pos p Hp) as P. set (g := eff_p p) in *.
  assert (HD : INR d <> 0%R) by (apply not_0_INR; lia). assert (HT : INR (nx + ny) <> 0%R) by (apply not_0_INR; lia).
  assert (HTp : (0 < INR (nx + ny))%R) by (apply lt_0_INR; lia). assert (HDp : (0 < INR d)%R) by (apply lt_0_INR; lia).
  set (m := fun f => massR (seps f) (col f) (x i f) (y j f)).
  change (n0 (V:=xr)) with (XFin 0).
  rewrite (fold_fin _ (fun f => powR (INR (m f) / INR (nx + ny)) g)).
  2:{ intros f Hf. apply in_seq in Hf. destruct (HE f ltac:(lia)) as (Ef & Lf & Rf & Cf).
      rewrite !nofnat_x, xdiv_nz by assumption. rewrite xpow_pos; [|apply Rle_mult_inv_pos; [apply pos_INR|assumption]|assumption].
      f_equal. f_equal. f_equal. f_equal. cbn [at2 rmat]. rewrite Ef. cbn [fst snd]. replace nb with (S (length (map XFin (seps f)))) by (rewrite map_length; lia).
      pose proof (redges _ _ _ Rf) as RE. rewrite !(bin_cell xr_cmp _ _ _ _ RE) by reflexivity. rewrite !cellv_R.
      assert (C : forall w, In w (map XFin (col f)) -> nle (XFin (lo f)) w = true /\ nle w (XFin (hi f)) = true).
      { intros w Hw. apply in_map_iff in Hw as (r & <- & Hr). destruct (Cf r Hr). split; apply xle_fin; assumption. }
      unfold m. rewrite <- massv_R. unfold R_of.
      assert (B : forall v, (cellR (seps f) v <= length (map XFin (seps f)))%nat) by (intros v; rewrite <- cellv_R; apply filter_len_le).
      destruct (Nat.leb_spec (cellR (seps f) (x i f)) (cellR (seps f) (y j f))).
      - rewrite (cum_mass xr_cmp _ _ _ _ _ _ RE C) by (auto; lia). rewrite Nat.min_l, Nat.max_r by lia. reflexivity.
      - rewrite (cum_mass xr_cmp _ _ _ _ _ _ RE C) by (auto; lia). rewrite Nat.min_r, Nat.max_l by lia. reflexivity. }
  rewrite nofnat_x, xdiv_nz by assumption. change (n1 (V:=xr)) with (XFin 1). rewrite xdiv_nz by lra.
  rewrite Rplus_0_l. unfold mp_formula. apply xpow_pos.
  - apply Rle_mult_inv_pos; [|assumption]. apply rsum_nonneg. intros a Ha. apply in_map_iff in Ha as (f & <- & _). apply powR_ge0.
  - unfold Rdiv. rewrite Rmult_1_l. apply Rinv_0_lt_compat. exact P.
Qed.

(** the histograms of a call with bins of equal width *)
Lemma range_hist part (c : mcall (V := xr)) nx ny d x y nb (seps : nat -> list R) :
  c_X c = rmat nx d x -> call_Y c = rmat ny d y -> c_bins c = Z.of_nat nb -> c_bin c = "range"%string -> 1 <= nb <= ny ->
  (forall f, f < d -> equal_width nb (map (fun k => y k f) (seq 0 ny)) (seps f)) ->
  call_check c = Ok tt /\ exists h lo hi, the_hist part c h /\ length h = d /\
    forall f, f < d -> nth f h ([], []) = (hist (XFin (lo f) :: map XFin (seps f) ++ [XFin (hi f)]) (map XFin (map (fun k => y k f) (seq 0 ny))), XFin (lo f) :: map XFin (seps f) ++ [XFin (hi f)]) /\
     length (seps f) = nb - 1 /\ redges_ok (lo f) (seps f) (hi f) /\ forall w, In w (map (fun k => y k f) (seq 0 ny)) -> (lo f <= w <= hi f)%R.
Proof.
  intros EX EY EB EN Hn HS.
  assert (NB : call_nb c = nb) by (unfold call_nb; rewrite EB; apply Nat2Z.id).
  split.
  { unfold call_check. rewrite NB, EX, EY, EB. cbn [ncol nrow rmat]. rewrite Nat.eqb_refl. cbn [negb guard bind].
    replace (Z.of_nat nb <? 0)%Z with false by (symmetry; apply Z.ltb_ge; lia). replace (Z.of_nat nb =? 0)%Z with false by (symmetry; apply Z.eqb_neq; lia). cbn [guard bind].
    unfold mpd_step. assert (S0 : ny / nb <> 0). { intros E. apply Nat.div_small_iff in E; lia. } apply Nat.eqb_neq in S0. rewrite S0. reflexivity. }
  set (f := fun (_ : list nat) i => bind (range_edges nb (coll (rmat ny d y) i)) (fun e => Ok (hist e (coll (rmat ny d y) i), e))).
  assert (Hf : hist_task part c = Some f) by (unfold hist_task; rewrite EN, EY, NB; reflexivity).
  assert (NE : forall f, map (fun k => y k f) (seq 0 ny) <> []). { intros i E. apply (f_equal (@length R)) in E. rewrite map_length, seq_length in E. cbn in E. lia. }
  assert (HE : forall i, i < d -> exists lo hi, f (the_kth c) i = Ok (hist (XFin lo :: map XFin (seps i) ++ [XFin hi]) (map XFin (map (fun k => y k i) (seq 0 ny))), XFin lo :: map XFin (seps i) ++ [XFin hi]) /\
     length (seps i) = nb - 1 /\ redges_ok lo (seps i) hi /\ forall w, In w (map (fun k => y k i) (seq 0 ny)) -> (lo <= w <= hi)%R).
  { intros i Hi. destruct (range_edges_x nb (map (fun k => y k i) (seq 0 ny)) ltac:(lia) (NE i)) as (lo & hi & s & EQ & L & RO & CV & EW).
    rewrite (equal_width_unique _ _ _ _ (HS i Hi) EW). exists lo, hi. unfold f. rewrite coll_rmat, EQ. cbn [bind]. auto. }
  destruct (mapM_build (fun i => f (the_kth c) i) (seq 0 d)) as (h & Hh).
  { intros i Hi. apply in_seq in Hi. destruct (HE i ltac:(lia)) as (lo & hi & -> & _). eexists. reflexivity. }
  assert (exists lo hi : nat -> R, forall i, i < d -> f (the_kth c) i = Ok (hist (XFin (lo i) :: map XFin (seps i) ++ [XFin (hi i)]) (map XFin (map (fun k => y k i) (seq 0 ny))), XFin (lo i) :: map XFin (seps i) ++ [XFin (hi i)]) /\
     length (seps i) = nb - 1 /\ redges_ok (lo i) (seps i) (hi i) /\ forall w, In w (map (fun k => y k i) (seq 0 ny)) -> (lo i <= w <= hi i)%R) as (lo & hi & HE').
  { clear - HE. induction d as [|d IH]; [exists (fun _ => 0%R), (fun _ => 0%R); intros; lia|].
    destruct IH as (lo & hi & IH); [intros; apply HE; lia|]. destruct (HE d ltac:(lia)) as (l0 & h0 & A).
    exists (fun i => if i =? d then l0 else lo i), (fun i => if i =? d then h0 else hi i). intros i Hi.
    destruct (Nat.eqb_spec i d); [subst; exact A|]. apply IH. lia. }
  exists h, lo, hi. split; [exists f; split; [exact Hf|]; rewrite EY; exact Hh|].
  split; [pose proof (mapM_length _ _ _ Hh) as LL; rewrite seq_length in LL; exact LL|].
  intros i Hi. destruct (HE' i Hi) as (A & B). split; [|exact B].
  destruct (mapM_ok_nth _ _ _ (@nil nat, @nil xr) Hh) as [_ Q]. specialize (Q i 0). rewrite seq_length in Q. specialize (Q Hi). rewrite seq_nth in Q by exact Hi. cbn [Nat.add] in Q. rewrite A in Q. injection Q as Q. symmetry. exact Q.
Qed.
