(** mp_dissim with bins of equal mass: only ranks matter; schedules; failures. *)
From Coq Require Import String.
From Coq Require Import ZArith List Arith Lia Bool Permutation.
From Verif Require Import Py Num Arr Sort Conc M_IO M_SNN M_MPDissim P_DSL P_MPDissim P_MPDissim2 P_MPDissim4 P_ApproxANN.
Import ListNotations.
Local Open Scope nat_scope.

Lemma split_nth {A} (d : A) l k : k < length l -> l = firstn k l ++ nth k l d :: skipn (S k) l.
Proof. revert k. induction l as [|x l IH]; intros [|k] H; cbn in *; try lia; [reflexivity|]. f_equal. apply IH. lia. Qed.
Lemma nth_first {A} (d : A) l k a : a < k -> k <= length l -> nth a (firstn k l) d = nth a l d.
Proof. revert a k. induction l as [|x l IH]; intros a [|k] H K; cbn in *; try lia; destruct a; auto. apply IH; lia. Qed.
Lemma nth_skip {A} (d : A) l m a : nth a (skipn m l) d = nth (m + a) l d.
Proof. revert m a. induction l as [|x l IH]; intros [|m] a; cbn [skipn Nat.add nth]; try reflexivity; [destruct a; reflexivity|apply IH]. Qed.
Lemma count_perm_g {A} (P : A -> bool) l l' : Permutation l l' -> length (filter P l) = length (filter P l').
Proof.
  induction 1 as [|x l l' HP IH|x y l|l l' l'' H1 IH1 H2 IH2]; cbn.
  - reflexivity.
  - destruct (P x); cbn; congruence.
  - destruct (P x), (P y); reflexivity.
  - congruence.
Qed.

Section Rank.
  Context {V : Type} {N : Num V} {toX : V -> xr} (CL : CmpLaws V N toX).

  (** how many values of the column are not above v *)
  Definition upto (col : list V) (v : V) : nat := length (filter (fun w => nle w v) col).
  (** cell number, from the rank alone *)
  Definition rcell (s m : nat) (col : list V) (v : V) : nat := length (filter (fun k => k * s <? upto col v) (seq 1 m)).
  Definition rmass (s m : nat) (col : list V) (u v : V) : nat :=
    length (filter (fun w => (Nat.min (rcell s m col u) (rcell s m col v) <=? rcell s m col w) &&
                             (rcell s m col w <=? Nat.max (rcell s m col u) (rcell s m col v))) col).

  Lemma sep_rank col ks q k v : is_part col ks q -> In k ks -> k < length col ->
    (forall w, In w col -> nisnan w = false) -> nisnan v = false -> nlt v (nth k q nnan) = negb (k <? upto col v).
  Proof.
    intros [HP HK] Hk Hl Hn Hv. assert (Lq : length q = length col) by (apply Permutation_length; exact HP).
    assert (Qn : forall a, a < length col -> nisnan (nth a q nnan) = false).
    { intros a Ha. apply Hn. eapply Permutation_in; [exact HP|]. apply nth_In. lia. }
    unfold upto. rewrite <- (count_perm_g _ _ _ HP). rewrite (split_nth nnan q k) at 2 by lia. rewrite filter_length_app.
    set (s := nth k q nnan).
    assert (LO : forall w, In w (firstn k q) -> nle w s = true).
    { intros w Hw. destruct (In_nth _ _ nnan Hw) as (a & Ha & <-). rewrite firstn_length in Ha. rewrite nth_first by lia.
      destruct (HK k Hk a) as [A _]. specialize (A ltac:(lia)). unfold sle, vat in A. rewrite !Qn in A by lia. cbn in A. exact A. }
    assert (HI : forall w, In w (skipn (S k) q) -> nle s w = true).
    { intros w Hw. destruct (In_nth _ _ nnan Hw) as (a & Ha & <-). rewrite skipn_length in Ha. rewrite nth_skip.
      destruct (HK k Hk (S k + a)) as [_ A]. specialize (A ltac:(lia) ltac:(lia)). unfold sle, vat in A. rewrite !Qn in A by lia. cbn in A. exact A. }
    assert (Sn : nisnan s = false) by (apply Qn; lia).
    assert (NF : forall w, In w (firstn k q) -> nisnan w = false).
    { intros w Hw. apply Hn. eapply Permutation_in; [exact HP|]. rewrite <- (firstn_skipn k q). apply in_or_app. now left. }
    assert (NS : forall w, In w (skipn (S k) q) -> nisnan w = false).
    { intros w Hw. apply Hn. eapply Permutation_in; [exact HP|]. rewrite <- (firstn_skipn (S k) q). apply in_or_app. now right. }
    cbn [filter]. destruct (nlt v s) eqn:E.
    - assert (Z1 : nle s v = false) by (rewrite (nle_not_lt CL) by assumption; rewrite E; reflexivity). rewrite Z1.
      rewrite (filter_none _ (skipn (S k) q)).
      2:{ intros w Hw. rewrite (nle_not_lt CL) by auto. rewrite (nlt_le_trans CL _ _ _ E (HI w Hw)). reflexivity. }
      cbn [length]. pose proof (filter_len_le (fun w => nle w v) (firstn k q)) as F. rewrite firstn_length in F.
      symmetry. apply negb_true_iff. apply Nat.ltb_ge. lia.
    - assert (Z1 : nle s v = true) by (rewrite (nle_not_lt CL) by assumption; rewrite E; reflexivity). rewrite Z1.
      rewrite filter_all; [|intros w Hw; exact (nle_trans CL _ _ _ (LO w Hw) Z1)].
      cbn [length]. rewrite firstn_length. symmetry. apply negb_false_iff. apply Nat.ltb_lt. lia.
  Qed.

  Lemma cell_rank col s m q : 0 < length col -> 0 < s -> (forall v, In v col -> nisnan v = false) ->
    length (mpd_kth (length col) s) = S (S m) -> is_part col (mpd_kth (length col) s) q ->
    forall v, nisnan v = false -> cellv (map (fun k => nth (k * s) q nnan) (seq 1 m)) v = rcell s m col v.
  Proof.
    intros Hc Hs Hn HL IP v Hv. unfold cellv, rcell.
    assert (K : forall k, In k (seq 1 m) -> In (k * s) (mpd_kth (length col) s)).
    { intros k Hk. rewrite (kth_shape _ _ _ Hc Hs HL). right. apply in_or_app. left. apply in_map_iff. exists k. auto. }
    revert K. generalize (seq 1 m). induction l as [|k l IH]; intros K; [reflexivity|]. cbn [map filter].
    rewrite (sep_rank col _ q (k * s) v IP) by (auto using in_eq; apply kth_lt with (s := s); auto using in_eq). rewrite negb_involutive.
    destruct (k * s <? upto col v); cbn [length]; rewrite IH by (intros; apply K; now right); reflexivity.
  Qed.

  (** the entry of the table of masses, from the ranks *)
  Lemma mass_entry col s m q u v : 0 < length col -> 0 < s -> (forall v, In v col -> nisnan v = false) ->
    length (mpd_kth (length col) s) = S (S m) -> is_part col (mpd_kth (length col) s) q -> nisnan u = false -> nisnan v = false ->
    let E := take nnan q (mpd_kth (length col) s) in
    R_of (hist E col) (mpd_bin (S m) E u) (mpd_bin (S m) E v) = rmass s m col u v.
  Proof.
    intros Hc Hs Hn HL IP Hu Hv E. pose proof (mass_shape CL col s m q Hc Hs Hn HL IP) as MS. cbn zeta in MS.
    destruct MS as (ET & EO & COV & KB). pose proof (cell_rank col s m q Hc Hs Hn HL IP) as CR.
    set (seps := map (fun k => nth (k * s) q nnan) (seq 1 m)) in *.
    assert (LS : length seps = m) by (unfold seps; rewrite map_length, seq_length; reflexivity).
    unfold E. rewrite ET. replace (S m) with (S (length seps)) by lia. rewrite !(bin_cell CL _ _ _ _ EO) by assumption.
    assert (B : forall v, cellv seps v <= length seps) by (intros; apply filter_len_le).
    assert (G : massv seps col (Nat.min (cellv seps u) (cellv seps v)) (Nat.max (cellv seps u) (cellv seps v)) = rmass s m col u v).
    { unfold massv, rmass. rewrite !CR by assumption. apply filter_len_ext. intros w Hw. rewrite CR by auto. reflexivity. }
    unfold R_of. destruct (Nat.leb_spec (cellv seps u) (cellv seps v)).
    - rewrite (cum_mass CL _ _ _ _ _ _ EO COV) by (auto; lia). rewrite Nat.min_l, Nat.max_r in G by lia. exact G.
    - rewrite (cum_mass CL _ _ _ _ _ _ EO COV) by (auto; lia). rewrite Nat.min_r, Nat.max_l in G by lia. exact G.
  Qed.
End Rank.

Section MassRun.
  Context {V : Type} {N : Num V} {toX : V -> xr} (CL : CmpLaws V N toX).
  Variable vpow : V -> V -> V.

  Definition mass_value (X Y : arr2 V) (p : V) (s m i j : nat) : V :=
    vpow (ndiv (fold_left (fun acc f => nadd acc (vpow (ndiv (nofnat (rmass s m (coll Y f) (at2 X i f) (at2 Y j f)))
                                                          (nofnat (nrow X + nrow Y))) (mpd_p p))) (seq 0 (ncol X)) n0)
            (nofnat (ncol X))) (ndiv n1 (mpd_p p)).

  Lemma mass_prepare (part : list V -> list nat -> list V) (PO : part_ok part) (X Y : arr2 V) nb jobs cpus :
    ncol X = ncol Y -> 1 <= nb <= nrow Y -> jobs_ok jobs cpus ->
    exists E, mpd_prepare part X Y (Z.of_nat nb) "mass" jobs cpus = Ok E /\
      forall f, f < ncol Y -> exists q, nth f E [] = take nnan q (mpd_kth (nrow Y) (nrow Y / nb)) /\
        is_part (coll Y f) (mpd_kth (nrow Y) (nrow Y / nb)) q.
  Proof.
    intros HC Hn HJ. rewrite prepare_unfold by assumption. cbn [String.prefix].
    assert (S0 : 0 < nrow Y / nb) by (apply Nat.div_str_pos; lia).
    assert (LC : forall f, length (coll Y f) = nrow Y) by (intros; unfold coll; rewrite map_length, seq_length; reflexivity).
    assert (G : forall f, exists q, mass_edges part (mpd_kth (nrow Y) (nrow Y / nb)) (coll Y f) = Ok (take nnan q (mpd_kth (nrow Y) (nrow Y / nb))) /\
      is_part (coll Y f) (mpd_kth (nrow Y) (nrow Y / nb)) q).
    { intros f. pose proof (mass_edges_ok part PO (coll Y f) (nrow Y / nb)) as M. rewrite LC in M. apply M; lia. }
    destruct (mapM_build (fun f => mass_edges part (mpd_kth (nrow Y) (nrow Y / nb)) (coll Y f)) (seq 0 (ncol Y))) as (E & HE).
    { intros f _. destruct (G f) as (q & -> & _). eexists. reflexivity. }
    exists E. split; [exact HE|]. intros f Hf. destruct (G f) as (q & EQ & IP). exists q. split; [|exact IP].
    destruct (mapM_ok_nth _ _ _ (@nil V) HE) as [_ Q]. specialize (Q f 0). rewrite seq_length in Q. specialize (Q Hf). rewrite seq_nth in Q by assumption.
    cbn [Nat.add] in Q. rewrite EQ in Q. congruence.
  Qed.

  Lemma mass_ok part (PO : part_ok part) X Y p nb jobs cpus r :
    ncol X = ncol Y -> 1 <= nb <= nrow Y -> jobs_ok jobs cpus -> (nrow Y - 1 + nrow Y / nb - 1) / (nrow Y / nb) = nb ->
    (forall i f, i < nrow X -> f < ncol X -> nisnan (at2 X i f) = false) ->
    (forall j f, j < nrow Y -> f < ncol X -> nisnan (at2 Y j f) = false) ->
    mp_dissim vpow part X (Some Y) p (Z.of_nat nb) "mass" jobs cpus r ->
    exists D, r = Ok D /\ eq2 D (Arr2 (nrow X) (nrow Y) (mass_value X Y p (nrow Y / nb) (nb - 1))).
  Proof.
    intros HC Hn HJ HF HX HY H. destruct (mass_prepare part PO X Y nb jobs cpus HC Hn HJ) as (E & HP & HE).
    assert (S0 : 0 < nrow Y / nb) by (apply Nat.div_str_pos; lia).
    assert (KL : length (mpd_kth (nrow Y) (nrow Y / nb)) = S nb) by (rewrite kth_length by lia; rewrite HF; reflexivity).
    assert (N1 : 1 <= nb) by lia.
    destruct (run_known vpow part X (Some Y) p nb "mass" jobs cpus E r N1 HP) as (D & -> & Q); [|exact H|].
    { intros f Hf. destruct (HE f ltac:(lia)) as (q & -> & _). unfold take. rewrite map_length. exact KL. }
    exists D. split; [reflexivity|]. destruct Q as (Q1 & Q2 & Q3). split; [exact Q1|]. split; [exact Q2|].
    intros i j Hi Hj. rewrite (Q3 i j Hi Hj). rewrite Q1 in Hi. rewrite Q2 in Hj. cbn [arg2 nrow ncol at2] in *.
    unfold mpd_final, mass_value, mpd_cell. f_equal. f_equal. apply fold_ext_in. intros acc f Hf. apply in_seq in Hf. f_equal. f_equal. f_equal. f_equal.
    destruct (HE f ltac:(lia)) as (q & Eq & IP). rewrite Eq.
    assert (LC : length (coll Y f) = nrow Y) by (unfold coll; rewrite map_length, seq_length; reflexivity).
    pose proof (mass_entry CL (coll Y f) (nrow Y / nb) (nb - 1) q (at2 X i f) (at2 Y j f)) as M. rewrite LC in M. cbn zeta in M.
    replace (S (nb - 1)) with nb in M by lia. apply M; auto; try lia; [|apply HX; lia|apply HY; lia].
    intros v Hv. apply in_map_iff in Hv as (k & <- & Hk). apply in_seq in Hk. apply HY; lia.
  Qed.

  Lemma mass_misfit part (PO : part_ok part) X Y p nb jobs cpus r :
    ncol X = ncol Y -> 0 < ncol X -> 1 <= nb <= nrow Y -> jobs_ok jobs cpus -> (nrow Y - 1 + nrow Y / nb - 1) / (nrow Y / nb) <> nb ->
    mp_dissim vpow part X (Some Y) p (Z.of_nat nb) "mass" jobs cpus r -> r = Raise ValueError.
  Proof.
    intros HC Hd Hn HJ HF H. destruct (mass_prepare part PO X Y nb jobs cpus HC Hn HJ) as (E & HP & HE).
    assert (S0 : 0 < nrow Y / nb) by (apply Nat.div_str_pos; lia).
    apply mpd_outcome in H. cbn [arg2] in H. cbn zeta in H. rewrite HP, Nat2Z.id in H.
    assert (F : fit_all nb (ncol X) Y E = false); [|rewrite F in H; exact H].
    unfold fit_all. apply negb_false_iff. apply existsb_exists. exists 0. split; [apply in_seq; lia|]. apply negb_true_iff.
    destruct (hist_fits nb (hist (nth 0 E []) (coll Y 0))) eqn:X0; [|reflexivity]. exfalso. apply HF.
    apply hist_fits_iff in X0; [|lia]. rewrite hist_len in X0. destruct (HE 0 ltac:(lia)) as (q & Eq & _). rewrite Eq in X0.
    unfold take in X0. rewrite map_length, kth_length in X0 by lia. lia.
  Qed.

  Lemma rmass_ext s m (a b : list V) u v u' v' : length a = length b ->
    (forall k l, k < length a -> l < length a -> nle (nth k a nnan) (nth l a nnan) = nle (nth k b nnan) (nth l b nnan)) ->
    (forall k, k < length a -> nle (nth k a nnan) u = nle (nth k b nnan) u') ->
    (forall k, k < length a -> nle (nth k a nnan) v = nle (nth k b nnan) v') ->
    rmass s m a u v = rmass s m b u' v'.
  Proof.
    intros L HA HU HV.
    assert (CNT : forall (P Q : V -> bool) (a b : list V), length a = length b -> (forall k, k < length a -> P (nth k a nnan) = Q (nth k b nnan)) ->
      length (filter P a) = length (filter Q b)).
    { clear. intros P Q. induction a as [|x a IH]; intros [|y b] L H; cbn in L; try lia; [reflexivity|]. cbn [filter].
      pose proof (H 0 ltac:(cbn; lia)) as H0. cbn [nth] in H0. rewrite H0. assert (R : length (filter P a) = length (filter Q b)).
      { apply IH; [lia|]. intros k Hk. apply (H (S k)). cbn. lia. }
      destruct (Q y); cbn [length]; rewrite R; reflexivity. }
    assert (U : forall w w', (forall k, k < length a -> nle (nth k a nnan) w = nle (nth k b nnan) w') -> rcell s m a w = rcell s m b w').
    { intros w w' Hw. unfold rcell, upto. rewrite (CNT (fun z => nle z w) (fun z => nle z w') a b L Hw). reflexivity. }
    unfold rmass. rewrite (U u u' HU), (U v v' HV). apply CNT; [exact L|]. intros k Hk. rewrite (U (nth k a nnan) (nth k b nnan)); [reflexivity|].
    intros l Hl. apply HA; assumption.
  Qed.
End MassRun.

Lemma nth_coll {V} {N : Num V} (A : arr2 V) f k : k < nrow A -> nth k (coll A f) nnan = at2 A k f.
Proof. intros H. unfold coll. apply (nth_map_seq (fun i => at2 A i f)). exact H. Qed.
