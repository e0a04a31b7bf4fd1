(** Proofs of C14, C15 and the SNN part of C16. *)
From Coq Require Import String.
From Coq Require Import ZArith List Arith Lia Bool Permutation.
From Verif Require Import Py Num Arr Sort Conc S_Neighbors S_SNN M_IO M_SNN.
From Verif Require Import P_Neighbors P_F64 P_Hubness P_MPEmpiric P_MPEmpiric2.
Import ListNotations.
Local Open Scope nat_scope.

Lemma existsb_In x l : existsb (Nat.eqb x) l = true <-> In x l.
Proof.
  rewrite existsb_exists. split.
  - intros (y & Hy & E). apply Nat.eqb_eq in E. now subst.
  - intros H. exists x. split; [assumption|apply Nat.eqb_refl].
Qed.

Lemma existsb_nIn x l : existsb (Nat.eqb x) l = false <-> ~ In x l.
Proof.
  rewrite <- existsb_In. destruct (existsb (Nat.eqb x) l); split; congruence.
Qed.

Lemma count_overlap n a b : NoDup a -> (forall x, In x a -> x < n) ->
  count_if (fun x => existsb (Nat.eqb x) a && existsb (Nat.eqb x) b) n = overlap a b.
Proof.
  intros Ha Hr. unfold count_if, overlap. apply Permutation_length.
  apply NoDup_Permutation.
  - apply NoDup_filter, seq_NoDup.
  - now apply NoDup_filter.
  - intros x. rewrite !filter_In, in_seq, andb_true_iff, existsb_In. split.
    + intros (_ & H1 & H2). auto.
    + intros (H1 & H2). specialize (Hr x H1). repeat split; auto; lia.
Qed.

Lemma overlap_le a b : overlap a b <= length a.
Proof. unfold overlap. induction a as [|x a IH]; simpl; [lia|]. destruct (existsb _ b); simpl; lia. Qed.

Lemma overlap_comm a b : NoDup a -> NoDup b -> overlap a b = overlap b a.
Proof.
  intros Ha Hb. unfold overlap. apply Permutation_length. apply NoDup_Permutation.
  - now apply NoDup_filter.
  - now apply NoDup_filter.
  - intros x. rewrite !filter_In, !existsb_In. tauto.
Qed.

Lemma overlap_self a : overlap a a = length a.
Proof.
  unfold overlap. f_equal. transitivity (filter (fun _ => true) a).
  - apply filter_ext_in. intros x Hx. now apply existsb_In.
  - induction a; simpl; [reflexivity|]. now f_equal.
Qed.

Section P.
  Context {V : Type} {N : Num V} {toX : V -> xr} (CL : CmpLaws V N toX).

  Lemma mark_loop (h : nat -> list nat) n m a b :
    at2 (for_ n (fun i K => mark_row K i (h i)) (full2 n m false)) a b
    = (a <? n) && existsb (Nat.eqb b) (h a).
  Proof.
    assert (G : forall k, at2 (for_ k (fun i K => mark_row K i (h i)) (full2 n m false)) a b
      = (a <? k) && existsb (Nat.eqb b) (h a)); [|apply G].
    induction k as [|k IH]; [reflexivity|].
    rewrite for_S. cbn [at2 mark_row]. rewrite IH.
    destruct (Nat.eqb_spec a k) as [E|E].
    - subst. rewrite Nat.ltb_irrefl. replace (k <? S k) with true by (symmetry; apply Nat.ltb_lt; lia).
      simpl. now destruct (existsb _ _).
    - replace (a <? S k) with (a <? k); [reflexivity|].
      destruct (Nat.ltb_spec a k), (Nat.ltb_spec a (S k)); lia || reflexivity.
  Qed.

  Lemma triu_only n m (f : nat -> nat -> V) a b : b < m ->
    at2 (for_ n (fun i M => setrow M i (i + 1) m (f i)) (full2 n m n0)) a b
    = if (a <? n) && (a <? b) then f a b else n0.
  Proof.
    intros Hb.
    assert (G : forall k, at2 (for_ k (fun i M => setrow M i (i + 1) m (f i)) (full2 n m n0)) a b
      = if (a <? k) && (a <? b) then f a b else n0); [|apply G].
    induction k as [|k IH]; [reflexivity|].
    rewrite for_S. cbn [at2 setrow]. rewrite IH.
    destruct (Nat.eqb_spec a k) as [E|E].
    - subst. rewrite Nat.ltb_irrefl. replace (k <? S k) with true by (symmetry; apply Nat.ltb_lt; lia).
      replace (b <? m) with true by (symmetry; apply Nat.ltb_lt; lia).
      cbn [andb]. rewrite andb_true_r.
      replace (k + 1 <=? b) with (k <? b); [reflexivity|].
      destruct (Nat.ltb_spec k b), (Nat.leb_spec (k + 1) b); lia || reflexivity.
    - cbn [andb]. replace (a <? S k) with (a <? k); [reflexivity|].
      destruct (Nat.ltb_spec a k), (Nat.ltb_spec a (S k)); lia || reflexivity.
  Qed.

  Lemma triu_shape n m (f : nat -> nat -> V) :
    nrow (for_ n (fun i M => setrow M i (i + 1) m (f i)) (full2 n m n0)) = n /\
    ncol (for_ n (fun i M => setrow M i (i + 1) m (f i)) (full2 n m n0)) = m.
  Proof.
    apply (for_shape n (fun i M => setrow M i (i + 1) m (f i)) (full2 n m n0)).
    intros; split; reflexivity.
  Qed.

  Variable argpart : list V -> list nat -> list nat.
  Hypothesis AP : argpart_ok argpart.

  (** the upper triangle as a function of the neighbour sets *)
  Definition snn_cell metric k n (hoods : nat -> list nat) i j : V :=
    snn_val metric k (snn_shared n (fun x => existsb (Nat.eqb x) (hoods i))
                                   (fun x => existsb (Nat.eqb x) (hoods j))).
  Definition snn_matrix metric k n hoods i j : V :=
    if i =? j then snn_self metric
    else if i <? j then nadd (snn_cell metric k n hoods i j) n0
    else nadd n0 (snn_cell metric k n hoods j i).

  Lemma snn_serial_at (D : arr2 V) k metric M :
    snn_serial argpart D k metric = Ok M ->
    exists hoods,
      nrow D = ncol D /\ valid_metric metric = true /\
      (forall i, i < nrow D ->
         snn_hood argpart metric k (fill_diagonal D (snn_exclude metric)) i = Ok (nth i hoods [])) /\
      nrow M = nrow D /\ ncol M = nrow D /\
      forall i j, i < nrow D -> j < nrow D ->
        at2 M i j = snn_matrix metric k (nrow D) (fun a => nth a hoods []) i j.
  Proof.
    intros H. unfold snn_serial in H.
    apply bind_ok_inv in H as ([] & H1 & H). apply bind_ok_inv in H as ([] & H2 & H).
    apply bind_ok_inv in H as (hoods & H3 & H). injection H as <-.
    exists hoods. set (n := nrow D) in *.
    assert (Hsq : n = ncol D).
    { unfold check_distance_matrix_shape in H1. simpl in H1. unfold guard, dim0, dim1 in H1. simpl in H1.
      fold n in H1. destruct (Nat.eqb_spec n (ncol D)); [assumption|discriminate]. }
    split; [assumption|]. split; [now apply check_metric_ok|]. split.
    { intros i Hi. apply (mapM_nth _ _ _ i 0 []) in H3; [|now rewrite seq_length].
      now rewrite seq_nth in H3. }
    split. { cbn [snn_finish fill_diagonal zip2 nrow]. apply triu_shape. }
    split. { cbn [snn_finish fill_diagonal zip2 ncol]. apply triu_shape. }
    intros i j Hi Hj. unfold snn_finish. cbn [fill_diagonal zip2 transpose at2].
    unfold snn_matrix. destruct (Nat.eqb_spec i j) as [|Hne]; [reflexivity|].
    rewrite !triu_only by lia.
    assert (EK : forall a b, a < n -> b < n ->
      snn_val metric k (snn_shared n
        (at2 (for_ n (fun i K => mark_row K i (nth i hoods [])) (full2 n n false)) a)
        (at2 (for_ n (fun i K => mark_row K i (nth i hoods [])) (full2 n n false)) b))
      = snn_cell metric k n (fun a => nth a hoods []) a b).
    { intros a b Ha Hb. unfold snn_cell, snn_shared. f_equal. apply count_if_ext. intros x Hx.
      rewrite !(mark_loop (fun i => nth i hoods [])).
      replace (a <? n) with true by (symmetry; apply Nat.ltb_lt; lia).
      replace (b <? n) with true by (symmetry; apply Nat.ltb_lt; lia). reflexivity. }
    replace (i <? n) with true by (symmetry; apply Nat.ltb_lt; lia).
    replace (j <? n) with true by (symmetry; apply Nat.ltb_lt; lia). cbn [andb].
    destruct (Nat.ltb_spec i j).
    - replace (j <? i) with false by (symmetry; apply Nat.ltb_ge; lia). now rewrite EK.
    - replace (j <? i) with true by (symmetry; apply Nat.ltb_lt; lia). now rewrite EK.
  Qed.

  Lemma prefix_nat {A} (l : list A) k : prefix l (Z.of_nat k) = firstn k l.
  Proof.
    unfold prefix. replace (Z.of_nat k <? 0)%Z with false by (symmetry; apply Z.ltb_ge; lia).
    now rewrite Nat2Z.id.
  Qed.

  Lemma firstn_rev_skipn {A} k (l : list A) : k <= length l ->
    firstn k (rev l) = rev (skipn (length l - k) l).
  Proof. intros H. rewrite firstn_rev. reflexivity. Qed.

  (** the neighbour list of one object *)
  Lemma snn_hood_spec metric (D : arr2 V) k i :
    valid_metric metric = true -> nrow D = ncol D -> i < nrow D -> 0 < k ->
    k < nrow D \/ (k = nrow D /\ metric = "similarity"%string) ->
    exists nn, snn_hood argpart metric (Z.of_nat k) (fill_diagonal D (snn_exclude metric)) i = Ok nn /\
      kset (fun x y => nearer metric (rank_value metric D i x) (rank_value metric D i y))
           (nrow D) k nn.
  Proof.
    intros Hv Hsq Hi Hk0 Hk. unfold snn_hood. set (E := fill_diagonal D (snn_exclude metric)).
    assert (Ln : length (rowl E i) = nrow D) by (rewrite rowl_length; simpl; congruence).
    assert (Ev : forall x, x < nrow D -> vat (rowl E i) x = rank_value metric D i x).
    { intros x Hx. unfold vat. rewrite rowl_nth by (simpl; congruence). unfold E, rank_value. simpl.
      rewrite Nat.eqb_sym. reflexivity. }
    unfold np_argpartition. cbn [nrow fill_diagonal] in *.
    assert (Enr : nrow E = nrow D) by reflexivity. rewrite Enr.
    destruct (valid_metric_cases metric Hv) as [(Em & Hd & Hs)|(Em & Hd & Hs)].
    - assert (Hkn : k < nrow D).
      { destruct Hk as [|(_ & Hk)]; [assumption|]. rewrite Em in Hk. discriminate. }
      unfold snn_kth, snn_order. rewrite Hs. cbv iota.
      replace (kth_legal (length (rowl E i)) [Z.of_nat k]) with true.
      2:{ symmetry. apply kth_legal_spec. intros z [<-|[]]. rewrite Ln. lia. }
      cbn [bind map]. rewrite py_norm_nonneg by lia. rewrite Nat2Z.id.
      eexists. split; [reflexivity|]. rewrite prefix_nat.
      destruct (argpart_kset_dist CL (rowl E i) k (argpart (rowl E i) [k])) as (K1 & K2 & K3 & K4).
      { rewrite Ln. assumption. }
      { apply AP. intros z [<-|[]]. rewrite Ln. assumption. }
      rewrite Ln in K3, K4.
      constructor; auto. intros x y Hx Hnx Hy. unfold nearer. rewrite Hs.
      rewrite <- !Ev by auto. now apply K4.
    - assert (Hkn : k <= nrow D) by lia.
      unfold snn_kth, snn_order. rewrite Hs. cbv iota.
      replace (kth_legal (length (rowl E i)) [(Z.of_nat (nrow D) - Z.of_nat k)%Z]) with true.
      2:{ symmetry. apply kth_legal_spec. intros z [<-|[]]. rewrite Ln. lia. }
      cbn [bind map]. rewrite py_norm_nonneg by lia.
      replace (Z.to_nat (Z.of_nat (nrow D) - Z.of_nat k)) with (nrow D - k) by lia.
      eexists. split; [reflexivity|]. rewrite prefix_nat.
      set (p := argpart (rowl E i) [nrow D - k]).
      assert (IA : is_argpart (rowl E i) [length (rowl E i) - k] p).
      { unfold p. rewrite Ln. apply AP. intros z [<-|[]]. rewrite Ln. lia. }
      assert (Lp : length p = nrow D).
      { destruct IA as (IA & _). apply perm_seq_length in IA. congruence. }
      rewrite firstn_rev_skipn by lia.
      pose proof (argpart_kset_sim CL (rowl E i) k p Hk0 ltac:(lia) IA) as K. cbv zeta in K.
      rewrite Ln in K. rewrite Lp.
      destruct K as (K1 & K2 & K3 & K4).
      constructor.
      + now rewrite rev_length.
      + now apply NoDup_rev.
      + intros x Hx. apply K3. now apply in_rev.
      + intros x y Hx Hnx Hy. unfold nearer. rewrite Hs. rewrite <- !Ev; auto.
        * apply K4; auto. { intros Hin. apply Hnx. now apply -> in_rev. } now apply in_rev.
        * apply K3. now apply in_rev.
  Qed.

  Lemma snn_serial_exists metric (D : arr2 V) k :
    valid_metric metric = true -> nrow D = ncol D -> 0 < k ->
    k < nrow D \/ (k = nrow D /\ metric = "similarity"%string) ->
    exists M, snn_serial argpart D (Z.of_nat k) metric = Ok M.
  Proof.
    intros Hv Hsq Hk0 Hk. unfold snn_serial. rewrite check_square by assumption. cbn [bind].
    rewrite (proj2 (check_metric_ok metric) Hv). cbn [bind].
    assert (E : forall l, (forall i, In i l -> i < nrow D) -> exists hoods,
       mapM (snn_hood argpart metric (Z.of_nat k) (fill_diagonal D (snn_exclude metric))) l = Ok hoods).
    { induction l as [|i l IH]; intros Hl; [now exists []|].
      destruct IH as (hs & Hhs); [intros; apply Hl; now right|].
      destruct (snn_hood_spec metric D k i) as (nn & Hnn & _); auto; [apply Hl; now left|].
      exists (nn :: hs). simpl. rewrite Hnn. simpl. now rewrite Hhs. }
    destruct (E (seq 0 (nrow D))) as (hoods & ->).
    - intros i Hi. apply in_seq in Hi. lia.
    - cbn [bind]. eauto.
  Qed.

  (** own exclusion: finite values always win against the object itself *)
  Lemma kset_no_self metric (D : arr2 V) n k i nn :
    valid_metric metric = true -> i < n -> k < n ->
    kset (fun x y => nearer metric (rank_value metric D i x) (rank_value metric D i y)) n k nn ->
    (forall x, x < n -> x <> i -> nisfin (at2 D i x) = true) ->
    ~ In i nn.
  Proof.
    intros Hv Hi Hk [K1 K2 K3 K4] Hf Hin.
    assert (Hex : exists x, x < n /\ ~ In x nn).
    { destruct (existsb (fun x => negb (existsb (Nat.eqb x) nn)) (seq 0 n)) eqn:E.
      - apply existsb_exists in E as (x & Hx & E). apply in_seq in Hx.
        exists x. split; [lia|]. apply existsb_nIn. now apply negb_true_iff.
      - exfalso. assert (n <= length nn); [|lia].
        rewrite <- (seq_length n 0). apply NoDup_incl_length; [apply seq_NoDup|].
        intros x Hx. destruct (in_dec Nat.eq_dec x nn) as [|Hn]; [assumption|].
        exfalso. apply existsb_nIn in Hn.
        assert (existsb (fun x => negb (existsb (Nat.eqb x) nn)) (seq 0 n) = true); [|congruence].
        apply existsb_exists. exists x. split; [assumption|]. now rewrite Hn. }
    destruct Hex as (x & Hx & Hnx). specialize (K4 x i Hx Hnx Hin).
    assert (x <> i) by (intros ->; contradiction).
    unfold rank_value in K4. rewrite Nat.eqb_refl in K4.
    replace (x =? i) with false in K4 by (symmetry; apply Nat.eqb_neq; assumption).
    unfold nearer, worst in K4. specialize (Hf x Hx H).
    destruct (is_sim metric).
    - rewrite (ninf_lt_fin CL) in K4 by assumption. discriminate.
    - rewrite (fin_lt_inf CL) in K4 by assumption. discriminate.
  Qed.

  (* ---------------- parallel ---------------- *)
  Lemma celleq_spec a b : celleq a b = true <-> a = b.
  Proof.
    destruct a, b. unfold celleq. simpl. rewrite andb_true_iff, !Nat.eqb_eq.
    split; [intros (-> & ->); reflexivity|intros E; injection E; auto].
  Qed.

  Lemma phase1 n hoods knn :
    pool_run celleq (fun _ => false)
        (map (fun i => snn_task1 i (nth i hoods [])) (seq 0 n)) knn ->
    forall a b, a < n -> knn (a, b) = existsb (Nat.eqb b) (nth a hoods []).
  Proof.
    intros H a b Ha.
    pose proof (fun F => pool_run_fun celleq celleq_spec _ knn _ (fun _ => true) F H (a, b)) as G.
    destruct G as (G1 & G2).
    { intros t c v Ht Hin. apply in_map_iff in Ht as (i & <- & _).
      unfold snn_task1 in Hin. apply in_map_iff in Hin as (x & E & _). congruence. }
    destruct (existsb (Nat.eqb b) (nth a hoods [])) eqn:E.
    - apply G1. exists (snn_task1 a (nth a hoods [])). split.
      + apply in_map_iff. exists a. split; [reflexivity|]. apply in_seq. lia.
      + unfold snn_task1. apply in_map_iff. exists b. split; [reflexivity|]. now apply existsb_In.
    - apply G2. intros t v Ht Hin. apply in_map_iff in Ht as (i & <- & _).
      unfold snn_task1 in Hin. apply in_map_iff in Hin as (x & E' & Hx).
      injection E' as -> -> _. apply existsb_nIn in E. contradiction.
  Qed.

  Lemma phase2 metric k n (knn : cell -> bool) (data : cell -> V) :
    pool_run celleq (fun _ => n0) (map (snn_task2 metric k n knn) (seq 0 n)) data ->
    forall a b, a < n -> b < n ->
      data (a, b) = if a <? b then snn_val metric k (snn_shared n (fun x => knn (a, x)) (fun x => knn (b, x)))
                    else n0.
  Proof.
    intros H a b Ha Hb.
    pose proof (fun F => pool_run_fun celleq celleq_spec _ data _
      (fun c => snn_val metric k (snn_shared n (fun x => knn (fst c, x)) (fun x => knn (snd c, x))))
      F H (a, b)) as G.
    destruct G as (G1 & G2).
    { intros t c v Ht Hin. apply in_map_iff in Ht as (i & <- & _).
      unfold snn_task2 in Hin. apply in_map_iff in Hin as (x & E & _). injection E as <- <-. reflexivity. }
    destruct (Nat.ltb_spec a b).
    - apply G1. exists (snn_task2 metric k n knn a). split.
      + apply in_map_iff. exists a. split; [reflexivity|]. apply in_seq. lia.
      + unfold snn_task2. apply in_map_iff. exists b. split; [reflexivity|]. apply in_seq. lia.
    - apply G2. intros t v Ht Hin. apply in_map_iff in Ht as (i & <- & _).
      unfold snn_task2 in Hin. apply in_map_iff in Hin as (x & E' & Hx).
      injection E' as -> -> _. apply in_seq in Hx. lia.
  Qed.

  Lemma hood_raise metric k (D : arr2 V) i e :
    nrow D = ncol D ->
    snn_hood argpart metric k (fill_diagonal D (snn_exclude metric)) i = Raise e ->
    forall j, snn_hood argpart metric k (fill_diagonal D (snn_exclude metric)) j = Raise ValueError.
  Proof.
    intros Hsq H j. unfold snn_hood, np_argpartition in *. rewrite !rowl_length in *.
    destruct (kth_legal _ _); [discriminate|reflexivity].
  Qed.

  (** every parallel outcome is the serial result, and there is one *)
  Lemma snn_parallel_serial (D : arr2 V) k metric r :
    snn_parallel argpart D k metric r ->
    match r, snn_serial argpart D k metric with
    | Ok M, Ok M' => eq2 M M'
    | Raise e, Raise e' => e = e'
    | _, _ => False
    end.
  Proof.
    intros H. unfold snn_serial. inversion H as [e H1|e H1 H2|i e H1 H2 H3 H4|hoods knn data H1 H2 H3 H4 H5]; subst r.
    - rewrite H1. reflexivity.
    - rewrite H1, H2. reflexivity.
    - rewrite H1, H2. cbn [bind].
      assert (Hsq : nrow D = ncol D).
      { unfold check_distance_matrix_shape in H1. simpl in H1. unfold guard, dim0, dim1 in H1. simpl in H1.
        destruct (Nat.eqb_spec (nrow D) (ncol D)); [assumption|discriminate]. }
      pose proof (hood_raise metric k D i e Hsq H4) as HR.
      rewrite HR in H4. injection H4 as <-.
      destruct (nrow D) as [|n]; [lia|]. cbn [seq mapM]. rewrite HR. reflexivity.
    - rewrite H1, H2. cbn [bind]. rewrite H3. cbn [bind].
      set (n := nrow D) in *.
      split; [|split].
      + cbn [snn_finish fill_diagonal zip2 nrow]. symmetry. apply triu_shape.
      + cbn [snn_finish fill_diagonal zip2 ncol]. symmetry. apply triu_shape.
      + cbn [snn_finish fill_diagonal zip2 nrow ncol transpose at2].
        intros i j Hi Hj. destruct (i =? j); [reflexivity|].
        rewrite !triu_only by assumption.
        replace (i <? n) with true by (symmetry; apply Nat.ltb_lt; assumption).
        replace (j <? n) with true by (symmetry; apply Nat.ltb_lt; assumption). cbn [andb].
        rewrite !(phase2 metric k n knn data H5) by assumption.
        assert (EK : forall a b, a < n -> b < n ->
          snn_shared n (fun x => knn (a, x)) (fun x => knn (b, x)) =
          snn_shared n
            (at2 (for_ n (fun i K => mark_row K i (nth i hoods [])) (full2 n n false)) a)
            (at2 (for_ n (fun i K => mark_row K i (nth i hoods [])) (full2 n n false)) b)).
        { intros a b Ha Hb. unfold snn_shared. apply count_if_ext. intros x Hx.
          rewrite !(mark_loop (fun i => nth i hoods [])).
          replace (a <? n) with true by (symmetry; apply Nat.ltb_lt; lia).
          replace (b <? n) with true by (symmetry; apply Nat.ltb_lt; lia).
          rewrite !(phase1 n hoods knn H4) by assumption. reflexivity. }
        rewrite !EK by assumption. reflexivity.
  Qed.

  Lemma snn_parallel_exists (D : arr2 V) k metric : exists r, snn_parallel argpart D k metric r.
  Proof.
    destruct (check_distance_matrix_shape (Dense [nrow D; ncol D])) as [[]|e] eqn:H1.
    2:{ exists (Raise e). now apply sp_shape. }
    destruct (check_valid_metric_parameter metric) as [[]|e] eqn:H2.
    2:{ exists (Raise e). apply sp_metric; assumption. }
    destruct (mapM (snn_hood argpart metric k (fill_diagonal D (snn_exclude metric))) (seq 0 (nrow D)))
      as [hoods|e] eqn:H3.
    - eexists. eapply sp_ok; eauto; apply pool_run_exists.
    - apply mapM_raise in H3 as (i & Hi & He). apply in_seq in Hi.
      exists (Raise e). apply (sp_task argpart D k metric i e); auto. lia.
  Qed.
End P.

(* ---------------- float64 ---------------- *)
Lemma snn_val_unit metric k c : 0 < k -> c <= k -> size_ok k ->
  is_unit (snn_val metric (Z.of_nat k) c).
Proof.
  intros Hk Hc Hb. unfold snn_val. change (nofZ (Z.of_nat k)) with (nofnat (V:=f64) k).
  destruct (is_sim metric); [now apply frac_unit|]. apply compl_correct. now apply frac_unit.
Qed.

Lemma snn_formula (argpart : list f64 -> list nat -> list nat) (AP : argpart_ok argpart)
    metric (D : arr2 f64) k :
  valid_metric metric = true -> nrow D = ncol D -> 0 < k -> size_ok k ->
  k < nrow D \/ (k = nrow D /\ metric = "similarity"%string) ->
  exists M (hood : nat -> list nat),
    snn_serial argpart D (Z.of_nat k) metric = Ok M /\
    nrow M = nrow D /\ ncol M = nrow D /\
    (forall i, i < nrow D ->
       kset (fun x y => nearer metric (rank_value metric D i x) (rank_value metric D i y))
            (nrow D) k (hood i)) /\
    (forall i, i < nrow D -> at2 M i i = snn_self metric) /\
    (forall i j, i < nrow D -> j < nrow D -> i <> j ->
       at2 M i j = snn_val metric (Z.of_nat k) (overlap (hood i) (hood j)) /\
       at2 M j i = at2 M i j /\
       nle n0 (at2 M i j) = true /\ nle (at2 M i j) n1 = true).
Proof.
  intros Hv Hsq Hk0 Hb Hk.
  destruct (snn_serial_exists f64_cmp argpart AP metric D k Hv Hsq Hk0 Hk) as (M & HM).
  destruct (snn_serial_at argpart D _ metric M HM) as (hoods & _ & _ & Hh & R & C & A).
  assert (HK : forall i, i < nrow D ->
    kset (fun x y => nearer metric (rank_value metric D i x) (rank_value metric D i y))
            (nrow D) k (nth i hoods [])).
  { intros i Hi. destruct (snn_hood_spec f64_cmp argpart AP metric D k i) as (nn & E & K); auto.
    rewrite Hh in E by assumption. injection E as ->. assumption. }
  exists M, (fun i => nth i hoods []).
  split; [assumption|]. split; [assumption|]. split; [assumption|]. split; [assumption|]. split.
  - intros i Hi. rewrite A by assumption. unfold snn_matrix. now rewrite Nat.eqb_refl.
  - intros i j Hi Hj Hne.
    assert (EC : forall a b, a < nrow D -> b < nrow D ->
      snn_cell (V:=f64) metric (Z.of_nat k) (nrow D) (fun i => nth i hoods []) a b
      = snn_val metric (Z.of_nat k) (overlap (nth a hoods []) (nth b hoods []))).
    { intros a b Ha Hb'. unfold snn_cell, snn_shared. f_equal.
      destruct (HK a Ha). now apply count_overlap. }
    assert (U : forall a b, a < nrow D -> 
      is_unit (snn_val metric (Z.of_nat k) (overlap (nth a hoods []) (nth b hoods [])))).
    { intros a b Ha. apply snn_val_unit; auto. destruct (HK a Ha) as [L _ _ _].
      rewrite <- L at 1. apply overlap_le. }
    assert (OC : overlap (nth j hoods []) (nth i hoods []) = overlap (nth i hoods []) (nth j hoods [])).
    { apply overlap_comm; [apply (HK j Hj)|apply (HK i Hi)]. }
    assert (E1 : at2 M i j = snn_val metric (Z.of_nat k) (overlap (nth i hoods []) (nth j hoods []))).
    { rewrite A by assumption. unfold snn_matrix.
      apply Nat.eqb_neq in Hne as Hne'. rewrite Hne'. destruct (i <? j).
      - rewrite EC by assumption. apply unit_add0, U. assumption.
      - rewrite EC by assumption. rewrite OC. apply unit_add0, U. assumption. }
    assert (E2 : at2 M j i = snn_val metric (Z.of_nat k) (overlap (nth i hoods []) (nth j hoods []))).
    { rewrite A by assumption. unfold snn_matrix. rewrite Nat.eqb_sym.
      apply Nat.eqb_neq in Hne as Hne'. rewrite Hne'. destruct (j <? i).
      - rewrite EC by assumption. rewrite OC. apply unit_add0, U. assumption.
      - rewrite EC by assumption. apply unit_add0, U. assumption. }
    rewrite E1, E2. split; [reflexivity|]. split; [reflexivity|].
    apply unit_bounds, U. assumption.
Qed.

(* ---------------- snn_sample ---------------- *)
Section Sample.
  Context {V : Type} {N : Num V} {toX : V -> xr} (CL : CmpLaws V N toX).
  Variable argsort : list V -> list nat.
  Hypothesis AS : argsort_ok argsort.

  Lemma set_cells_at idx v (D : arr2 V) a b :
    at2 (set_cells idx v D) a b
    = if (b <? length idx) && (a =? nth b idx 0) then v else at2 D a b.
  Proof. exact (set_self_cells_at idx v D a b). Qed.
  Lemma set_cells_shape idx v (D : arr2 V) :
    nrow (set_cells idx v D) = nrow D /\ ncol (set_cells idx v D) = ncol D.
  Proof. exact (set_self_cells_shape idx v D). Qed.

  Lemma sample_hood metric (D : arr2 V) train k i :
    valid_metric metric = true -> length train = ncol D -> k <= ncol D ->
    kset (fun x y => nearer metric (rank_value_s metric D train i x) (rank_value_s metric D train i y))
      (ncol D) k
      (prefix (snn_order metric (argsort (rowl (set_cells train (snn_exclude metric) D) i))) (Z.of_nat k)).
  Proof.
    intros Hv Hl Hk. set (E := set_cells train (snn_exclude metric) D).
    destruct (set_cells_shape train (snn_exclude metric) D) as (R & C). fold E in R, C.
    assert (Ln : length (rowl E i) = ncol D) by (rewrite rowl_length; assumption).
    assert (Ev : forall x, x < ncol D -> vat (rowl E i) x = rank_value_s metric D train i x).
    { intros x Hx. unfold vat. rewrite rowl_nth by (rewrite C; assumption).
      unfold E, rank_value_s. rewrite set_cells_at, Hl.
      replace (x <? ncol D) with true by (symmetry; apply Nat.ltb_lt; lia).
      cbn [andb]. rewrite Nat.eqb_sym. reflexivity. }
    rewrite prefix_nat. set (p := argsort (rowl E i)).
    pose proof (AS (rowl E i)) as IS. fold p in IS.
    destruct (valid_metric_cases metric Hv) as [(Em & Hd & Hs)|(Em & Hd & Hs)];
      unfold snn_order; rewrite Hs.
    - destruct (argpart_knn_dist CL (rowl E i) k p) as [K1 K2 K3 _ K4].
      { rewrite Ln. assumption. }
      { apply argsort_argpart; [assumption|]. intros z Hz. apply in_seq in Hz. lia. }
      rewrite Ln in K3, K4. constructor; auto.
      intros x y Hx Hnx Hy. unfold nearer. rewrite Hs. rewrite <- !Ev by auto. now apply K4.
    - assert (Lp : length p = ncol D).
      { destruct IS as (IS & _). apply perm_seq_length in IS. congruence. }
      rewrite firstn_rev_skipn by lia. rewrite Lp.
      destruct (argpart_knn_sim CL (rowl E i) k p) as [K1 K2 K3 _ K4].
      { rewrite Ln. assumption. }
      { apply argsort_argpart; [assumption|]. intros z Hz. apply in_seq in Hz. lia. }
      rewrite Ln in K1, K2, K3, K4. constructor; auto.
      intros x y Hx Hnx Hy. unfold nearer. rewrite Hs. rewrite <- !Ev by auto. now apply K4.
  Qed.

  Lemma rows_loop {B} (rows : list nat) s (f : nat -> nat -> B) (M : arr2 B) a b : b < s ->
    at2 (fold_left (fun M i => setrow M i 0 s (f i)) rows M) a b
    = if existsb (Nat.eqb a) rows then f a b else at2 M a b.
  Proof.
    intros Hb. revert M. induction rows as [|i rows IH]; intros M; [reflexivity|].
    cbn [fold_left existsb]. rewrite IH. destruct (existsb (Nat.eqb a) rows); [now rewrite orb_true_r|].
    rewrite orb_false_r. cbn [at2 setrow]. destruct (Nat.eqb_spec a i) as [E|E]; [|reflexivity].
    subst. cbn [andb]. replace (b <? s) with true by (symmetry; apply Nat.ltb_lt; lia). reflexivity.
  Qed.

  Lemma rows_shape {B} (rows : list nat) s (f : nat -> nat -> B) (M : arr2 B) :
    nrow (fold_left (fun M i => setrow M i 0 s (f i)) rows M) = nrow M /\
    ncol (fold_left (fun M i => setrow M i 0 s (f i)) rows M) = ncol M.
  Proof.
    revert M. induction rows as [|i rows IH]; intros M; [split; reflexivity|].
    cbn [fold_left]. destruct (IH (setrow M i 0 s (f i))) as (-> & ->). split; reflexivity.
  Qed.

  Lemma snn_sample_spec (D : arr2 V) k metric train (test : option (list nat)) :
    ncol D <= nrow D -> length train = ncol D -> valid_metric metric = true ->
    (forall s, In s train -> s < nrow D) ->
    match test with None => True | Some t => forall s, In s t -> s < nrow D end ->
    k <= ncol D ->
    exists M (hood : nat -> list nat),
      snn_sample argsort D (Z.of_nat k) metric train test = Ok M /\
      (forall i, hood i = prefix (snn_order metric
          (argsort (rowl (set_cells train (snn_exclude metric) D) i))) (Z.of_nat k)) /\
      (forall i, i < nrow D ->
         kset (fun x y => nearer metric (rank_value_s metric D train i x) (rank_value_s metric D train i y))
              (ncol D) k (hood i)) /\
      nrow M = match test with None => nrow D | Some t => length t end /\
      ncol M = ncol D /\
      forall a j, a < nrow M -> j < ncol D ->
        at2 M a j =
        match test with
        | None => if a =? j then snn_self metric
                  else snn_val metric (Z.of_nat k) (overlap (hood a) (hood (nth j train 0)))
        | Some t => if nth j train 0 =? nth a t 0 then snn_self metric
                    else snn_val metric (Z.of_nat k) (overlap (hood (nth a t 0)) (hood (nth j train 0)))
        end.
  Proof.
    intros Hn Hl Hv Ht Hte Hk. unfold snn_sample.
    replace (check_sample_shape_fits (Dense [nrow D; ncol D]) (Dense [length train])) with (Ok tt).
    2:{ unfold check_sample_shape_fits, guard, dim0, dim1, size_of. simpl.
        replace (nrow D <? ncol D) with false by (symmetry; apply Nat.ltb_ge; lia).
        rewrite Nat.mul_1_r, Hl, Nat.eqb_refl. reflexivity. }
    cbn [bind]. rewrite (proj2 (check_metric_ok metric) Hv). cbn [bind].
    rewrite (proj2 (existsb_ge_false (nrow D) train) Ht). cbn [guard bind].
    set (hood := fun i => prefix (snn_order metric
          (argsort (rowl (set_cells train (snn_exclude metric) D) i))) (Z.of_nat k)).
    assert (HK : forall i, kset (fun x y => nearer metric (rank_value_s metric D train i x) (rank_value_s metric D train i y))
              (ncol D) k (hood i)) by (intros; now apply sample_hood).
    set (rows := match test with None => seq 0 (nrow D) | Some t => t end).
    assert (A : forall a j, In a rows -> j < ncol D ->
      at2 (fold_left (fun M i => setrow M i 0 (ncol D) (fun j =>
        snn_val metric (Z.of_nat k) (snn_shared (ncol D)
          (at2 (for_ (nrow D) (fun i K => mark_row K i (hood i)) (full2 (nrow D) (ncol D) false)) i)
          (at2 (for_ (nrow D) (fun i K => mark_row K i (hood i)) (full2 (nrow D) (ncol D) false))
               (nth j train 0)))))
        rows (full2 (nrow D) (ncol D) n0)) a j
      = snn_val metric (Z.of_nat k) (overlap (hood a) (hood (nth j train 0)))).
    { intros a j Ha Hj. rewrite rows_loop by assumption.
      rewrite (proj2 (existsb_In a rows) Ha). f_equal.
      assert (a < nrow D).
      { unfold rows in Ha. destruct test as [t|]; [now apply Hte|]. apply in_seq in Ha. lia. }
      assert (nth j train 0 < nrow D) by (apply Ht, nth_In; lia).
      rewrite <- (count_overlap (ncol D)) by apply (HK a).
      unfold snn_shared. apply count_if_ext. intros x Hx. rewrite !mark_loop.
      replace (a <? nrow D) with true by (symmetry; apply Nat.ltb_lt; lia).
      replace (nth j train 0 <? nrow D) with true by (symmetry; apply Nat.ltb_lt; lia).
      reflexivity. }
    set (f := fun i j => snn_val metric (Z.of_nat k) (snn_shared (ncol D)
          (at2 (for_ (nrow D) (fun i K => mark_row K i (hood i)) (full2 (nrow D) (ncol D) false)) i)
          (at2 (for_ (nrow D) (fun i K => mark_row K i (hood i)) (full2 (nrow D) (ncol D) false))
               (nth j train 0)))) in *.
    destruct (rows_shape rows (ncol D) f (full2 (nrow D) (ncol D) n0)) as (R & C).
    destruct test as [t|].
    - rewrite (proj2 (existsb_ge_false (nrow D) t) Hte). cbn [guard bind].
      eexists. exists hood. split; [reflexivity|]. split; [reflexivity|]. split; [auto|].
      cbn [nrow ncol at2]. split; [reflexivity|]. split; [reflexivity|].
      intros a j Ha Hj. rewrite set_cells_at, Hl.
      replace (j <? ncol D) with true by (symmetry; apply Nat.ltb_lt; lia). cbn [andb].
      rewrite Nat.eqb_sym. destruct (nth j train 0 =? nth a t 0); [reflexivity|].
      apply A; [|assumption]. now apply nth_In.
    - cbn [guard bind]. eexists. exists hood. split; [reflexivity|]. split; [reflexivity|]. split; [auto|].
      cbn [nrow ncol at2 fill_diagonal]. split; [exact R|]. split; [exact C|].
      intros a j Ha Hj. destruct (a =? j); [reflexivity|]. apply A; [|assumption].
      apply in_seq. split; [lia|]. rewrite <- R at 1. exact Ha.
  Qed.
End Sample.
