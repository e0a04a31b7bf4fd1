(** The class Hubness: sparse search, fit_transform, ranges in floating point. *)
From Coq Require Import String.
From Coq Require Import ZArith List Arith Lia Bool Permutation Reals Lra.
From Flocq Require Import Core BinarySingleNaN.
From Verif Require Import Py Num Arr Sort Conc S_Neighbors S_HubnessClass P_Neighbors M_Hubness M_Dist M_KNN M_HubnessClass P_Hubness P_HubnessMain P_F64 P_KNN P_HubnessClass.
Import ListNotations.
Local Open Scope nat_scope.

Lemma n_batches_neg n b : (b < 0)%Z -> n_batches n b = Ok 0.
Proof.
  intros H. unfold n_batches. destruct (Z.eqb_spec b 0); [lia|]. f_equal.
  pose proof (Z.div_mod (- Z.of_nat n) b ltac:(lia)) as E.
  pose proof (Z.mod_neg_bound (- Z.of_nat n) b H) as B. nia.
Qed.

Section Sparse.
  Context {V : Type} {N : Num V} {toX : V -> xr} (CL : CmpLaws V N toX).
  Variable argpart : list V -> list nat -> list nat.
  Hypothesis AP : argpart_ok argpart.

  Definition row_rp (rps : option (nat -> list nat)) (i : nat) : option (list nat) :=
    match rps with None => None | Some f => Some (f i) end.

  Lemma concat_nth {A} (ll : list (list A)) w i c d : (forall r, In r ll -> length r = w) ->
    i < length ll -> c < w -> nth (i * w + c) (concat ll) d = nth c (nth i ll []) d.
  Proof.
    revert i. induction ll as [|r ll IH]; intros i H Hi Hc; [cbn in Hi; lia|].
    cbn [concat]. pose proof (H r (or_introl eq_refl)) as Lr. destruct i as [|i].
    - cbn [Nat.mul Nat.add nth]. apply app_nth1. lia.
    - rewrite app_nth2 by (rewrite Lr; cbn; lia). cbn [nth].
      rewrite Lr. replace (S i * w + c - w) with (i * w + c) by (cbn; lia).
      apply IH; auto. { intros r' Hr. apply H. now right. } cbn in Hi. lia.
  Qed.

  Lemma concat_len {A} (ll : list (list A)) w : (forall r, In r ll -> length r = w) -> length (concat ll) = length ll * w.
  Proof.
    intros H. induction ll as [|r ll IH]; [reflexivity|]. cbn [concat length]. rewrite app_length, IH by (intros; apply H; now right).
    rewrite (H r (or_introl eq_refl)). cbn. lia.
  Qed.
  Lemma sum_const l w : (forall x, In x l -> x = w) -> sum_nat l = length l * w.
  Proof.
    intros H. induction l as [|x l IH]; [reflexivity|].
    cbn [sum_nat length]. rewrite IH by (intros; apply H; now right).
    rewrite (H x (or_introl eq_refl)). cbn. lia.
  Qed.

  Lemma indptr_uniform (rows : list (list (nat * V))) w i : (forall r, In r rows -> length r = w) -> i <= length rows ->
    indptr rows i = i * w.
  Proof.
    intros H Hi. unfold indptr. rewrite (sum_const _ w).
    - rewrite map_length, firstn_length. f_equal. lia.
    - intros x Hx. apply in_map_iff in Hx as (r & <- & Hr). apply H.
      rewrite <- (firstn_skipn i rows). apply in_or_app. now left.
  Qed.

  (** the fast path is the row-wise path *)
  Lemma sparse_uniform rows k rps : rows <> [] ->
    k_neighbors_sparse argpart rows k rps
    = mapM (fun i => sparse_row argpart k (row_rp rps i) (nth i rows [])) (seq 0 (length rows)).
  Proof.
    intros Hne. unfold k_neighbors_sparse. destruct rows as [|r0 rest] eqn:Er; [congruence|].
    rewrite <- Er in *. set (w := length r0).
    destruct rps as [f|]; [now destruct (forallb _ rows)|].
    destruct (forallb (fun r => length r =? w) rows) eqn:Ef; [|reflexivity].
    assert (Hw : forall r, In r rows -> length r = w).
    { rewrite forallb_forall in Ef. intros r Hr. now apply Nat.eqb_eq, Ef. }
    apply mapM_ext. intros i Hi. apply in_seq in Hi.
    assert (Lr : length (nth i rows []) = w) by (apply Hw, nth_In; lia).
    unfold sparse_row, row_rp, row_nn.
    replace (map (fun c => vat (map snd (concat rows)) (i * w + c)) (seq 0 w)) with (map snd (nth i rows [])).
    2:{ apply (nth_ext _ _ nnan nnan); [now rewrite !map_length, seq_length|].
        intros c Hc. rewrite map_length, Lr in Hc. rewrite nth_map_seq by assumption. unfold vat.
        assert (Hlt : i * w + c < length (concat rows)).
        { rewrite (concat_len rows w) by assumption. nia. }
        rewrite (nth_indep _ nnan (snd (0, nnan : V))) by (rewrite map_length; lia).
        rewrite (nth_indep (map snd (concat rows)) nnan (snd (0, nnan : V))) by (now rewrite map_length).
        rewrite !map_nth, (concat_nth rows w) by (assumption || lia). reflexivity. }
    destruct (np_argpartition argpart (map snd (nth i rows [])) (zarange 0 (Z.of_nat k))) as [p|e] eqn:Ep; cbn [bind]; [|reflexivity].
    f_equal. unfold take.
    assert (Hp : forall c, In c (slice p 0 k) -> c < w).
    { intros c Hc. destruct (le_lt_dec k w) as [Hk|Hk].
      - rewrite np_argpart_range in Ep by (rewrite map_length; lia). injection Ep as <-.
        assert (HA : is_argpart (map snd (nth i rows [])) (seq 0 k) (argpart (map snd (nth i rows [])) (seq 0 k))).
        { apply AP. intros x Hx. rewrite map_length, Lr. apply in_seq in Hx. lia. }
        destruct HA as (HP & _). rewrite map_length, Lr in HP.
        assert (In c (seq 0 w)); [|apply in_seq in H; lia].
        eapply Permutation_in; [exact HP|]. unfold slice in Hc. cbn [skipn] in Hc.
        rewrite <- (firstn_skipn (k - 0)). apply in_or_app. now left.
      - rewrite np_argpart_bad in Ep by (rewrite map_length; lia). discriminate. }
    apply map_ext_in. intros c Hc. apply Hp in Hc.
    rewrite (indptr_uniform rows w) by (assumption || lia).
    assert (Hlt : i * w + c < length (concat rows)).
    { rewrite (concat_len rows w) by assumption. nia. }
    rewrite (nth_indep _ 0 (fst (0, nnan : V))) by (rewrite map_length; lia).
    rewrite (nth_indep (map fst (nth i rows [])) 0 (fst (0, nnan : V))) by (rewrite map_length; lia).
    rewrite !map_nth, (Nat.add_comm c), (concat_nth rows w) by (assumption || lia). reflexivity.
  Qed.

  Lemma sparse_row_spec k rp row : rp_wf (length row) rp -> k <= length row ->
    exists L, knn_list (fun x y => nlt (vat (map snd row) x) (vat (map snd row) y)) (length row) k L /\
      sparse_row argpart k rp row = Ok (map (fun p => nth p (map fst row) 0) L).
  Proof.
    intros Hrp Hk. destruct (row_nn_spec CL argpart AP 0 k rp (map snd row)) as (L & HL & E).
    - now rewrite map_length.
    - rewrite map_length; lia.
    - rewrite map_length in HL. cbn [Nat.add skipn] in *. exists L. split; [assumption|].
      unfold sparse_row. rewrite E. reflexivity.
  Qed.
  Lemma sparse_row_bad k rp row : rp_wf (length row) rp -> length row < k ->
    sparse_row argpart k rp row = Raise ValueError.
  Proof.
    intros Hrp Hk. unfold sparse_row.
    pose proof (row_nn_bad argpart 0 k rp (map snd row)) as E. cbn [Nat.add] in E. rewrite E; [reflexivity| |].
    - now rewrite map_length.
    - now rewrite map_length.
  Qed.
End Sparse.

(* ------------------------------------------------------------------ *)
(** ** fit_transform *)
Section Fit.
  Context {V : Type} {N : Num V} {toX : V -> xr} (CL : CmpLaws V N toX).
  Variable rdist : nat -> (nat -> V) -> (nat -> V) -> V.
  Variables (vsum : list V -> V) (vpow : V -> V -> V).
  Variable argpart : list V -> list nat -> list nat.
  Hypothesis AP : argpart_ok argpart.

  Lemma measures_nn k hs nt ntr nn f :
    measures (N:=N) vsum vpow k hs nt ntr nn = Ok f -> f_nn f = nn /\ f_occ f = bincount (concat nn) ntr /\
      f_occ f <> [] /\ measures vsum vpow k hs nt ntr (f_nn f) = Ok f.
  Proof.
    intros H. pose proof H as H'. unfold measures in H. apply bind_ok_inv in H as ([] & G & H).
    assert (Ex : forall a b : hub_fit (V:=V), Ok a = Ok b -> a = b) by (intros ? ? [=]; assumption).
    apply Ex in H. subst f. cbn [f_nn f_occ]. repeat split; [|exact H'].
    intros E. rewrite E in G. discriminate.
  Qed.

  Lemma pre_rows (D : arr2 V) s k rps nn :
    match rps with None => True | Some f => forall i, i < nrow D -> Permutation (f i) (seq 0 (ncol D)) end ->
    k_neighbors_precomputed argpart D (zarange 0 (Z.of_nat (s + k))) s (s + k) rps = Ok nn ->
    length nn = nrow D /\ forall i, i < nrow D -> s + k <= ncol D /\ exists L,
      knn_list (fun x y => nlt (if nisfin (at2 D i x) then at2 D i x else ninf) (if nisfin (at2 D i y) then at2 D i y else ninf))
               (ncol D) (s + k) L /\ nth i nn [] = skipn s L.
  Proof.
    intros Hrp H. unfold k_neighbors_precomputed in H. split.
    - apply mapM_length in H. now rewrite seq_length in H.
    - intros i Hi. assert (Hi' : i < length (seq 0 (nrow D))) by (now rewrite seq_length).
      pose proof (mapM_nth _ _ _ i 0 [] H Hi') as E. rewrite seq_nth in E by assumption. cbn [Nat.add] in E.
      set (d := map (fun v => if nisfin v then v else ninf) (rowl D i)) in *.
      assert (Ld : length d = ncol D) by (unfold d, rowl; now rewrite !map_length, seq_length).
      apply (row_nn_ok CL argpart AP) in E.
      2:{ destruct rps as [f|]; [|exact I]. cbn. rewrite Ld. auto. }
      destruct E as (Hk & L & HL & E). rewrite Ld in *. split; [assumption|]. exists L. split; [|assumption].
      assert (Ev : forall x, x < ncol D -> vat d x = if nisfin (at2 D i x) then at2 D i x else ninf).
      { intros x Hx. unfold vat, d, rowl. rewrite map_map. now rewrite nth_map_seq by assumption. }
      destruct HL as [K1 K2 K3 K4 K5]. constructor; auto.
      + intros a b Hab Hb. specialize (K4 a b Hab Hb). rewrite !Ev in K4 by (apply K3, nth_In; lia). exact K4.
      + intros x y Hx Hn Hy. specialize (K5 x y Hx Hn Hy). rewrite !Ev in K5 by auto. exact K5.
  Qed.

  Lemma vec_rows (X Y : arr2 V) metric s k bs nj nn : (1 <= bs)%Z ->
    k_neighbors rdist argpart X Y metric k (zarange 0 (Z.of_nat (s + k))) s (s + k) bs nj (Ok nn) ->
    length nn = nrow X /\ forall i, i < nrow X -> s + k <= nrow Y /\ exists L,
      knn_list (fun x y => nlt (rdist (ncol X) (at2 X i) (at2 Y x)) (rdist (ncol X) (at2 X i) (at2 Y y)))
               (nrow Y) (s + k) L /\ nth i nn [] = skipn s L.
  Proof.
    intros Hb H. apply (k_neighbors_det CL rdist argpart AP) in H; [|assumption].
    destruct (Nat.eqb_spec (nrow X) 0) as [E0|E0].
    { injection H as ->. rewrite E0. split; [reflexivity|lia]. }
    rewrite (batch_nn_eq CL rdist argpart AP) in H.
    destruct (_ && _)%bool eqn:E in H; [|discriminate]. injection H as ->.
    apply andb_prop in E as (_ & E). rewrite forallb_forall in E.
    split; [now rewrite map_length, seq_length|]. intros i Hi.
    rewrite nth_map_seq by assumption.
    specialize (E i ltac:(apply in_seq; lia)). unfold row_good in E. apply andb_prop in E as (_ & E).
    unfold row_val. destruct (row_nn _ _ _ _ _ _) as [l|] eqn:Er; [|discriminate].
    apply (row_nn_ok CL argpart AP) in Er; [|exact I].
    assert (Ld : length (vec_row rdist X Y i) = nrow Y) by (unfold vec_row; now rewrite map_length, seq_length).
    rewrite Ld in Er. destruct Er as (Hk & L & HL & ->). split; [assumption|]. exists L. split; [|reflexivity].
    assert (Ev : forall x, x < nrow Y -> vat (vec_row rdist X Y i) x = rdist (ncol X) (at2 X i) (at2 Y x)).
    { intros x Hx. unfold vat, vec_row. now rewrite nth_map_seq by assumption. }
    destruct HL as [K1 K2 K3 K4 K5]. constructor; auto.
    + intros a b Hab Hb'. specialize (K4 a b Hab Hb'). rewrite !Ev in K4 by (apply K3, nth_In; lia). exact K4.
    + intros x y Hx Hn Hy. specialize (K5 x y Hx Hn Hy). rewrite !Ev in K5 by auto. exact K5.
  Qed.

  Lemma sparse_rows rows k rps nn : srows_wf rows rps ->
    k_neighbors_sparse argpart rows k rps = Ok nn ->
    length nn = length rows /\ forall i, i < length rows -> k <= length (nth i rows []) /\ exists L,
      knn_list (fun x y => nlt (vat (map snd (nth i rows [])) x) (vat (map snd (nth i rows [])) y))
               (length (nth i rows [])) k L /\
      nth i nn [] = map (fun p => nth p (map fst (nth i rows [])) 0) L.
  Proof.
    intros Hw H. destruct rows as [|r0 rest] eqn:Er; [discriminate|]. rewrite <- Er in *.
    rewrite (sparse_uniform argpart AP) in H by (rewrite Er; discriminate). split.
    - apply mapM_length in H. now rewrite seq_length in H.
    - intros i Hi. assert (Hi' : i < length (seq 0 (length rows))) by (now rewrite seq_length).
      pose proof (mapM_nth _ _ _ i 0 [] H Hi') as E. rewrite seq_nth in E by assumption. cbn [Nat.add] in E.
      assert (Hrp : rp_wf (length (nth i rows [])) (row_rp rps i)).
      { unfold row_rp. destruct rps as [f|]; [|exact I]. cbn in *. auto. }
      destruct (le_lt_dec k (length (nth i rows []))) as [Hk|Hk].
      + split; [assumption|]. destruct (sparse_row_spec CL argpart AP k _ _ Hrp Hk) as (L & HL & E').
        rewrite E' in E. injection E as <-. eauto.
      + rewrite (sparse_row_bad argpart) in E by assumption. discriminate.
  Qed.

  Lemma nodup_nth_inj {A} (l : list A) d i j : NoDup l -> i < length l -> j < length l -> nth i l d = nth j l d -> i = j.
  Proof. intros H. now apply (proj1 (NoDup_nth l d) H). Qed.

  Lemma fit_rows metric k hs bs nj rps hself X Y f : (1 <= bs)%Z -> in_wf X rps ->
    fit_transform rdist vsum vpow argpart metric k hs bs nj rps hself X Y (Ok f) ->
    measures vsum vpow k hs (in_rows X) (in_train metric X Y) (f_nn f) = Ok f /\
    length (f_nn f) = in_rows X /\
    forall r, In r (f_nn f) -> length r = k /\ NoDup r /\ forall x, In x r -> x < in_train metric X Y.
  Proof.
    intros Hb Hw H.
    assert (G : exists nn, measures vsum vpow k hs (in_rows X) (in_train metric X Y) nn = Ok f /\
       length nn = in_rows X /\
       forall i, i < in_rows X -> length (nth i nn []) = k /\ NoDup (nth i nn []) /\ forall x, In x (nth i nn []) -> x < in_train metric X Y).
    { remember (Ok f) as r eqn:E in H.
      destruct H as [X Y Hm|D Hm|m rows Hm|X Y Hm Hc|X Y r Hm Hc Hk]; try discriminate E; cbn [in_rows in_wf] in *.
      - cbn [in_train]. cbv zeta in E. apply bind_ok_inv in E as (nn & E1 & E2). rewrite Hm. rewrite String.eqb_refl.
        exists nn. apply pre_rows in E1 as (L1 & HR); [|assumption]. split; [assumption|]. split; [assumption|]. intros i Hi. destruct (HR i Hi) as (_ & L & HL & ->).
        exact (skipn_knn_facts _ _ _ _ _ HL).
      - apply bind_ok_inv in E as (nn & E1 & E2). destruct Hw as (Hw1 & Hw2).
        exists nn. apply sparse_rows in E1 as (L1 & HR); [|assumption]. split; [assumption|]. split; [assumption|]. intros i Hi. destruct (HR i Hi) as (Hk & L & HL & ->).
        destruct HL as [K1 K2 K3 _ _]. destruct (Hw2 (nth i rows [])) as (ND & Rg); [now apply nth_In|]. repeat split.
        + now rewrite map_length.
        + rewrite <- (map_length fst) in K3. clear -K2 K3 ND. induction L as [|p L IH]; [constructor|].
          cbn. inversion K2; subst. constructor.
          * intros Hin. apply in_map_iff in Hin as (q & Eq & Hq).
            apply (nodup_nth_inj _ 0) in Eq; [subst q; contradiction|assumption| |]; apply K3; [now right|now left].
          * apply IH; auto. intros x Hx. apply K3. now right.
        + intros x Hx. apply in_map_iff in Hx as (p & <- & Hp). apply Rg, nth_In. rewrite map_length. auto.
      - cbv zeta in Hk. apply bind_ok_inv in E as (nn & -> & E2).
        assert (Em : String.eqb metric "precomputed" = false) by (now apply String.eqb_neq).
        exists nn. apply vec_rows in Hk as (L1 & HR); [|assumption].
        assert (ET : in_train metric (InDense X) Y = nrow (match Y with None => X | Some Y => Y end))
          by (unfold in_train; destruct Y; [reflexivity|now rewrite Em]).
        rewrite ET.
        split; [assumption|]. split; [assumption|]. intros i Hi. destruct (HR i Hi) as (_ & L & HL & ->).
        exact (skipn_knn_facts _ _ _ _ _ HL). }
    destruct G as (nn & G1 & G2 & G3). destruct (measures_nn _ _ _ _ _ _ G1) as (E & _ & _ & G4).
    rewrite E in *. split; [assumption|]. split; [assumption|]. intros r Hr.
    apply (In_nth _ _ []) in Hr as (i & Hi & <-). apply G3. lia.
  Qed.
End Fit.

(* ------------------------------------------------------------------ *)
(** ** ranges at binary64 *)
Local Open Scope R_scope.
Lemma hub_frac (s k n : nat) : (s <= n * k)%nat -> (0 < k)%nat -> (0 < n)%nat -> (Z.of_nat (n * k) < 2 ^ 53)%Z ->
  is_unit (ndiv (ndiv (nofnat s) (nofnat k)) (nofnat n)) /\
  B2R (ndiv (V:=f64) (ndiv (nofnat s) (nofnat k)) (nofnat n)) = rnd (rnd (INR s / INR k) / INR n).
Proof.
  intros Hs Hk Hn Hb. unfold nofnat. cbn [nofZ ndiv Num_f64].
  assert (Bk : (Z.of_nat k < 2 ^ 53)%Z) by nia. assert (Bn : (Z.of_nat n < 2 ^ 53)%Z) by nia.
  destruct (f64_ofZ_exact (Z.of_nat s)) as (Es & Fs); [lia|].
  destruct (f64_ofZ_exact (Z.of_nat k)) as (Ek & Fk); [lia|].
  destruct (f64_ofZ_exact (Z.of_nat n)) as (En & Fn); [lia|].
  assert (Pk : 0 < IZR (Z.of_nat k)) by (apply IZR_lt; lia).
  assert (Pn : 0 < IZR (Z.of_nat n)) by (apply IZR_lt; lia).
  assert (Big : 2 ^ 53 < bpow radix2 1024).
  { replace (2 ^ 53) with (bpow radix2 53) by (cbn; lra). apply bpow_lt. reflexivity. }
  pose proof (Bdiv_correct 53 1024 prec53 emax1024 mode_NE (f64_ofZ (Z.of_nat s)) (f64_ofZ (Z.of_nat k))) as H.
  rewrite Ek, Es in H. specialize (H ltac:(lra)).
  assert (U : 0 <= IZR (Z.of_nat s) / IZR (Z.of_nat k) <= IZR (Z.of_nat n)).
  { split.
    - apply Rmult_le_pos; [apply IZR_le; lia|]. left. now apply Rinv_0_lt_compat.
    - apply (Rmult_le_reg_r (IZR (Z.of_nat k))); [assumption|].
      unfold Rdiv. rewrite Rmult_assoc, Rinv_l, Rmult_1_r by lra. rewrite <- mult_IZR. apply IZR_le. lia. }
  assert (Ur : 0 <= rnd (IZR (Z.of_nat s) / IZR (Z.of_nat k)) <= IZR (Z.of_nat n)).
  { rewrite <- rnd_0 at 1. rewrite <- (rnd_Z (Z.of_nat n)) by lia. split; now apply rnd_le. }
  assert (Nb : IZR (Z.of_nat n) <= 2 ^ 53).
  { replace (2 ^ 53) with (IZR (2 ^ 53)) by (cbn; lra). apply IZR_le. lia. }
  fold (rnd (IZR (Z.of_nat s) / IZR (Z.of_nat k))) in H. set (q := rnd (IZR (Z.of_nat s) / IZR (Z.of_nat k))) in *.
  rewrite Rlt_bool_true in H by (rewrite Rabs_pos_eq by lra; lra).
  destruct H as (H1 & H2 & H3). rewrite Fs in H2. rewrite !f64_ofZ_sign in H3 by lia.
  set (Q := Bdiv mode_NE (f64_ofZ (Z.of_nat s)) (f64_ofZ (Z.of_nat k))) in *.
  assert (HQ : Bsign Q = false) by (apply H3; destruct Q; try reflexivity; discriminate).
  pose proof (Bdiv_correct 53 1024 prec53 emax1024 mode_NE Q (f64_ofZ (Z.of_nat n))) as G.
  rewrite En, H1 in G. specialize (G ltac:(lra)).
  assert (W : 0 <= q / IZR (Z.of_nat n) <= 1).
  { split.
    - apply Rmult_le_pos; [lra|]. left. now apply Rinv_0_lt_compat.
    - apply (Rmult_le_reg_r (IZR (Z.of_nat n))); [assumption|].
      unfold Rdiv. rewrite Rmult_assoc, Rinv_l, Rmult_1_r, Rmult_1_l by lra. lra. }
  pose proof (rnd_unit _ W) as Wr. fold (rnd (q / IZR (Z.of_nat n))) in G.
  rewrite Rlt_bool_true in G.
  2:{ rewrite Rabs_pos_eq by lra. pose proof bpow1024_big. lra. }
  destruct G as (G1 & G2 & G3). rewrite H2 in G2. rewrite HQ, f64_ofZ_sign in G3 by lia.
  unfold is_unit. rewrite !INR_IZR_INZ. repeat split; auto; try (rewrite G1; lra).
  apply G3. destruct (Bdiv _ Q _); try reflexivity; discriminate.
Qed.

Local Open Scope nat_scope.
Lemma filter_len_le {A} (f : A -> bool) l : length (filter f l) <= length l.
Proof. induction l as [|x l IH]; cbn; [lia|]. destruct (f x); cbn; lia. Qed.
Lemma map_nth_seq_nat (l : list nat) : map (fun j => nth j l 0) (seq 0 (length l)) = l.
Proof. rewrite (P_KNN.map_nth_seq (fun x => x) l 0). apply map_id. Qed.
Lemma sum_filter_le (g : nat -> nat) f l : sum_nat (map g (filter f l)) <= sum_nat (map g l).
Proof. induction l as [|x l IH]; cbn; [lia|]. destruct (f x); cbn; lia. Qed.
