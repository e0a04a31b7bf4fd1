(** Proofs about local scaling: order statistics and the matrices written by
    the serial loops. *)
From Coq Require Import String.
From Coq Require Import ZArith Reals Lra List Arith Lia Bool Permutation.
From Verif Require Import Py Num NumT Arr Sort Conc S_Neighbors S_LS M_IO M_Hubness M_SNN M_LS.
From Verif Require Import P_Neighbors P_Hubness P_MPEmpiric P_SNN.
Import ListNotations.
Local Open Scope nat_scope.

Lemma filter_length_perm {A} (f : A -> bool) a b : Permutation a b -> length (filter f a) = length (filter f b).
Proof. induction 1; simpl; repeat destruct (f _); simpl; lia. Qed.

Lemma filter_length_le {A} (f : A -> bool) a : length (filter f a) <= length a.
Proof. induction a; simpl; [lia|]. destruct (f a); simpl; lia. Qed.

Lemma filter_all {A} (f : A -> bool) a : (forall x, In x a -> f x = true) -> filter f a = a.
Proof. induction a; simpl; intros H; [reflexivity|]. rewrite H by auto. f_equal. auto. Qed.
Lemma filter_none {A} (f : A -> bool) a : (forall x, In x a -> f x = false) -> filter f a = [].
Proof. induction a; simpl; intros H; [reflexivity|]. rewrite H by auto. auto. Qed.

Lemma split_nth {A} (l : list A) k d : k < length l -> l = firstn k l ++ nth k l d :: skipn (S k) l.
Proof.
  revert k. induction l as [|x l IH]; intros k Hk; simpl in Hk; [lia|].
  destruct k as [|k]; [reflexivity|]. simpl. f_equal. apply IH. lia.
Qed.

Section Order.
  Context {V : Type} {N : Num V} {toX : V -> xr} (CL : CmpLaws V N toX).

  Lemma sle_nle x y : nisnan x = false -> nisnan y = false -> sle x y = nle x y.
  Proof. intros Hx Hy. unfold sle. now rewrite Hx, Hy. Qed.

  Lemma part_kth_smallest (l q : list V) k : is_part l [k] q -> k < length l ->
    (forall x, In x l -> nisnan x = false) -> kth_smallest l (S k) (vat q k).
  Proof.
    intros (Hp & Hk) Hl Hn. specialize (Hk k (or_introl eq_refl)).
    pose proof (Permutation_length Hp) as Lq.
    assert (Hnq : forall x, In x q -> nisnan x = false) by (intros x Hx; apply Hn; eapply Permutation_in; eauto).
    assert (Hv : In (vat q k) q) by (apply nth_In; lia).
    split; [eapply Permutation_in; eauto|].
    rewrite <- !(filter_length_perm _ _ _ Hp).
    assert (Es : q = firstn k q ++ vat q k :: skipn (S k) q) by (apply split_nth; lia).
    set (v := vat q k) in *.
    assert (Hf : forall x, In x (firstn k q) -> nle x v = true).
    { intros x Hx. apply (In_nth _ _ nnan) in Hx. destruct Hx as (a & Ha & Ea).
      rewrite firstn_length in Ha. rewrite nth_firstn_lt in Ea by lia. rewrite <- sle_nle.
      - rewrite <- Ea. apply (Hk a). lia.
      - apply Hnq. rewrite <- Ea. apply nth_In. lia.
      - now apply Hnq. }
    assert (Hs : forall x, In x (skipn (S k) q) -> nlt x v = false).
    { intros x Hx. apply (In_nth _ _ nnan) in Hx. destruct Hx as (a & Ha & Ea).
      rewrite skipn_length in Ha. rewrite nth_skipn_add in Ea.
      apply (sle_not_lt CL). rewrite <- Ea. apply (Hk (S k + a)); lia. }
    split.
    - rewrite Es, filter_app, app_length. cbn [filter]. rewrite (nlt_irrefl CL), (filter_none _ _ Hs).
      simpl. pose proof (filter_length_le (fun x => nlt x v) (firstn k q)) as H.
      pose proof (firstn_le_length k q). lia.
    - rewrite Es, filter_app, app_length. cbn [filter]. rewrite (filter_all _ _ Hf).
      replace (nle v v) with true by (symmetry; rewrite <- sle_nle by auto; apply (sle_refl CL)).
      cbn [length]. rewrite firstn_length. lia.
  Qed.

  Lemma part_kth_largest (l q : list V) k : is_part l [length l - k] q -> 0 < k <= length l ->
    (forall x, In x l -> nisnan x = false) -> kth_largest l k (vat q (length l - k)).
  Proof.
    intros (Hp & Hk) Hl Hn. specialize (Hk _ (or_introl eq_refl)).
    pose proof (Permutation_length Hp) as Lq.
    set (p := length l - k) in *.
    assert (Hnq : forall x, In x q -> nisnan x = false) by (intros x Hx; apply Hn; eapply Permutation_in; eauto).
    assert (Hv : In (vat q p) q) by (apply nth_In; lia).
    split; [eapply Permutation_in; eauto|].
    rewrite <- !(filter_length_perm _ _ _ Hp).
    assert (Es : q = firstn p q ++ vat q p :: skipn (S p) q) by (apply split_nth; lia).
    set (v := vat q p) in *.
    assert (Hf : forall x, In x (firstn p q) -> nlt v x = false).
    { intros x Hx. apply (In_nth _ _ nnan) in Hx. destruct Hx as (a & Ha & Ea).
      rewrite firstn_length in Ha. rewrite nth_firstn_lt in Ea by lia.
      apply (sle_not_lt CL). rewrite <- Ea. apply (Hk a). lia. }
    assert (Hs : forall x, In x (skipn (S p) q) -> nle v x = true).
    { intros x Hx. apply (In_nth _ _ nnan) in Hx. destruct Hx as (a & Ha & Ea).
      rewrite skipn_length in Ha. rewrite nth_skipn_add in Ea. rewrite <- sle_nle.
      - rewrite <- Ea. apply (Hk (S p + a)); lia.
      - now apply Hnq.
      - apply Hnq. rewrite <- Ea. apply nth_In. lia. }
    split.
    - rewrite Es, filter_app, app_length. cbn [filter]. rewrite (nlt_irrefl CL), (filter_none (fun x => nlt v x) _ Hf).
      pose proof (filter_length_le (fun x => nlt v x) (skipn (S p) q)) as H.
      rewrite skipn_length in H. cbn [length Nat.add]. eapply Nat.le_lt_trans; [exact H|lia].
    - rewrite Es, filter_app, app_length. cbn [filter]. rewrite (filter_all (fun x => nle v x) _ Hs).
      replace (nle v v) with true by (symmetry; rewrite <- sle_nle by auto; apply (sle_refl CL)).
      cbn [length]. rewrite skipn_length. lia.
  Qed.

  Lemma part_k_smallest (l q : list V) k : is_part l (seq 0 k) q -> k <= length l ->
    k_smallest l k (firstn k q).
  Proof.
    intros (Hp & Hk) Hl. pose proof (Permutation_length Hp) as Lq.
    split; [rewrite firstn_length; lia|]. exists (skipn k q). split.
    - rewrite firstn_skipn. now symmetry.
    - intros x y Hx Hy. apply (In_nth _ _ nnan) in Hx. destruct Hx as (a & Ha & Ea).
      apply (In_nth _ _ nnan) in Hy. destruct Hy as (b & Hb & Eb).
      rewrite firstn_length in Ha. rewrite nth_firstn_lt in Ea by lia.
      rewrite skipn_length in Hb. rewrite nth_skipn_add in Eb.
      apply (sle_not_lt CL). rewrite <- Ea, <- Eb.
      apply (Hk a); [apply in_seq; lia|lia|lia].
  Qed.

  (** removing copies of +inf (the excluded self entry) *)
  Lemma drop_inf (l o w : list V) k v : Permutation l (o ++ w) -> (forall x, In x w -> x = ninf) ->
    (forall x, In x o -> nisfin x = true) -> k <= length o ->
    kth_smallest l k v -> kth_smallest o k v.
  Proof.
    intros Hp Hw Ho Hk (Hin & H1 & H2). rewrite (filter_length_perm _ _ _ Hp), filter_app, app_length in H1. rewrite (filter_length_perm _ _ _ Hp), filter_app, app_length in H2.
    assert (W1 : filter (fun x => nlt x v) w = []).
    { apply filter_none. intros x Hx. rewrite (Hw x Hx). apply (nlt_inf_false CL). }
    rewrite W1 in H1. simpl in H1. rewrite Nat.add_0_r in H1.
    assert (Hvo : In v o).
    { eapply Permutation_in in Hin; [|exact Hp]. apply in_app_iff in Hin. destruct Hin as [|Hv]; [assumption|].
      exfalso. rewrite (Hw v Hv) in H1. rewrite filter_all in H1; [lia|].
      intros x Hx. apply (fin_lt_inf CL). auto. }
    split; [assumption|]. split; [assumption|].
    rewrite (filter_none (fun x => nle x v) w) in H2; [simpl in H2; lia|].
    intros x Hx. rewrite (Hw x Hx). specialize (Ho v Hvo).
    destruct (nle ninf v) eqn:E; [|reflexivity]. exfalso.
    destruct (nle_nan_r CL _ _ E). rewrite (nle_not_lt CL) in E by assumption.
    rewrite (fin_lt_inf CL) in E by assumption. discriminate.
  Qed.

  Lemma drop_ninf (l o w : list V) k v : Permutation l (o ++ w) -> (forall x, In x w -> x = nninf) ->
    (forall x, In x o -> nisfin x = true) -> k <= length o ->
    kth_largest l k v -> kth_largest o k v.
  Proof.
    intros Hp Hw Ho Hk (Hin & H1 & H2). rewrite (filter_length_perm _ _ _ Hp), filter_app, app_length in H1. rewrite (filter_length_perm _ _ _ Hp), filter_app, app_length in H2.
    assert (W1 : filter (fun x => nlt v x) w = []).
    { apply filter_none. intros x Hx. rewrite (Hw x Hx). apply (nlt_ninf_false CL). }
    rewrite W1 in H1. simpl in H1. rewrite Nat.add_0_r in H1.
    assert (Hvo : In v o).
    { eapply Permutation_in in Hin; [|exact Hp]. apply in_app_iff in Hin. destruct Hin as [|Hv]; [assumption|].
      exfalso. rewrite (Hw v Hv) in H1. rewrite filter_all in H1; [lia|].
      intros x Hx. apply (ninf_lt_fin CL). auto. }
    split; [assumption|]. split; [assumption|].
    rewrite (filter_none (fun x => nle v x) w) in H2; [simpl in H2; lia|].
    intros x Hx. rewrite (Hw x Hx). specialize (Ho v Hvo).
    destruct (nle v nninf) eqn:E; [|reflexivity]. exfalso.
    destruct (nle_nan_r CL _ _ E). rewrite (nle_not_lt CL) in E by assumption.
    rewrite (ninf_lt_fin CL) in E by assumption. discriminate.
  Qed.

  Lemma k_smallest_drop_inf (l o : list V) (w : list V) k s : Permutation l (o ++ w) ->
    (w = [] \/ w = [ninf]) -> (forall x, In x o -> nisfin x = true) -> k <= length o ->
    k_smallest l k s -> k_smallest o k s /\ forall x, In x s -> In x o.
  Proof.
    intros Hp Hw Ho Hk (Ls & rest & Hr & Hord).
    assert (Pr : Permutation (s ++ rest) (o ++ w)) by (etransitivity; [symmetry; exact Hr|exact Hp]).
    destruct Hw as [-> | ->].
    - rewrite app_nil_r in Pr. split; [split; [assumption|exists rest; split; [now symmetry|assumption]]|].
      intros x Hx. eapply Permutation_in; [exact Pr|]. apply in_app_iff. now left.
    - assert (Hfin : forall x, In x s -> nisfin x = true).
      { intros x Hx. destruct (nisfin x) eqn:E; [reflexivity|]. exfalso.
        assert (Ex : x = ninf).
        { assert (Hin : In x (o ++ [ninf])) by (eapply Permutation_in; [exact Pr|apply in_app_iff; now left]).
          apply in_app_iff in Hin. destruct Hin as [Hin|[<-|[]]]; [|reflexivity]. rewrite Ho in E by assumption. discriminate. }
        subst x.
        assert (Hrest : forall y, In y rest -> nisfin y = false).
        { intros y Hy. specialize (Hord _ _ Hx Hy). destruct (nisfin y) eqn:F; [|reflexivity].
          rewrite (fin_lt_inf CL) in Hord by assumption. discriminate. }
        pose proof (filter_length_perm nisfin _ _ Pr) as Hc. rewrite !filter_app, !app_length in Hc.
        rewrite (filter_none _ _ Hrest), (filter_all _ _ Ho) in Hc. simpl in Hc.
        rewrite (inf_not_fin CL) in Hc. simpl in Hc.
        apply in_split in Hx. destruct Hx as (s1 & s2 & ->). rewrite filter_app, app_length in Hc.
        simpl in Hc. rewrite (inf_not_fin CL) in Hc.
        pose proof (filter_length_le nisfin s1). pose proof (filter_length_le nisfin s2).
        rewrite app_length in Ls. simpl in Ls. lia. }
      assert (Hi : In ninf rest).
      { assert (Hin : In ninf (s ++ rest)) by (eapply Permutation_in; [symmetry; exact Pr|apply in_app_iff; right; now left]).
        apply in_app_iff in Hin. destruct Hin as [Hin|Hin]; [|assumption].
        apply Hfin in Hin. rewrite (inf_not_fin CL) in Hin. discriminate. }
      apply in_split in Hi. destruct Hi as (r1 & r2 & ->).
      assert (Po : Permutation o (s ++ r1 ++ r2)).
      { apply (Permutation_cons_inv (a := ninf)). rewrite (Permutation_cons_append o ninf), <- Pr.
        symmetry. rewrite !app_assoc. now rewrite <- Permutation_middle. }
      split.
      + split; [assumption|]. exists (r1 ++ r2). split; [assumption|].
        intros x y Hx Hy. apply Hord; [assumption|]. rewrite in_app_iff in *. simpl. tauto.
      + intros x Hx. eapply Permutation_in; [symmetry; exact Po|]. apply in_app_iff. now left.
  Qed.
End Order.

Section Rows.
  Context {V : Type} {N : Num V}.

  (** row i with the self entry replaced, restricted to the columns [cols] *)
  Lemma row_split (D : arr2 V) e cols i : NoDup cols ->
    exists w, Permutation (map (at2 (fill_diagonal D e) i) cols) (others D cols i ++ w) /\
      (w = [] \/ w = [e]) /\ (w = [] <-> ~ In i cols).
  Proof.
    intros Hn. induction Hn as [|x cols Hx Hn (w & Hp & Hw & Hwi)].
    - exists []. simpl. intuition.
    - unfold others in *. cbn [map filter at2 fill_diagonal].
      rewrite (Nat.eqb_sym x i). destruct (Nat.eqb_spec i x) as [->|Hne]; cbn [negb].
      + assert (w = []) by now apply Hwi. subst w. rewrite app_nil_r in Hp.
        exists [e]. split; [|split; [now right|split; [discriminate|simpl; intuition]]].
        etransitivity; [|apply Permutation_cons_append]. apply perm_skip. exact Hp.
      + exists w. split; [cbn [map app]; now apply perm_skip|]. split; [assumption|].
        rewrite Hwi. simpl. split; [intros H [->|]; auto|intuition].
  Qed.

  Lemma others_length (D : arr2 V) cols i : NoDup cols -> In i cols -> S (length (others D cols i)) = length cols.
  Proof.
    intros Hn. induction Hn as [|x cols Hx Hn IH]; [contradiction|].
    unfold others in *. cbn [filter]. destruct (Nat.eqb_spec x i) as [->|Hne]; cbn [negb map length].
    - intros _. rewrite filter_all; [now rewrite map_length|]. intros y Hy.
      apply negb_true_iff, Nat.eqb_neq. intros ->. contradiction.
    - intros [->|Hi]; [congruence|]. now rewrite IH.
  Qed.

  Lemma triu_from c n m (f : nat -> nat -> V) a b : b < m ->
    at2 (for_ n (fun i M => setrow M i (i + c) m (f i)) (full2 n m n0)) a b
    = if (a <? n) && (a + c <=? b) then f a b else n0.
  Proof.
    intros Hb.
    assert (G : forall k, at2 (for_ k (fun i M => setrow M i (i + c) m (f i)) (full2 n m n0)) a b
      = if (a <? k) && (a + c <=? b) then f a b else n0); [|apply G].
    induction k as [|k IH]; [reflexivity|].
    rewrite for_S. cbn [at2 setrow]. rewrite IH.
    destruct (Nat.eqb_spec a k) as [E|E].
    - subst. rewrite Nat.ltb_irrefl. replace (k <? S k) with true by (symmetry; apply Nat.ltb_lt; lia).
      replace (b <? m) with true by (symmetry; apply Nat.ltb_lt; lia).
      cbn [andb]. rewrite andb_true_r. reflexivity.
    - cbn [andb]. replace (a <? S k) with (a <? k); [reflexivity|].
      destruct (Nat.ltb_spec a k), (Nat.ltb_spec a (S k)); lia || reflexivity.
  Qed.

  Lemma for_setrow_shape (lo : nat -> nat) n m hi (f : nat -> nat -> V) :
    nrow (for_ n (fun i M => setrow M i (lo i) hi (f i)) (full2 n m n0)) = n /\
    ncol (for_ n (fun i M => setrow M i (lo i) hi (f i)) (full2 n m n0)) = m.
  Proof.
    apply (for_shape n (fun i M => setrow M i (lo i) hi (f i)) (full2 n m n0)).
    intros; split; reflexivity.
  Qed.

  Variables (vexp vln : V -> V) (vsum : list V -> V).
  Variable part : list V -> list nat -> list V.

  Lemma check_shape_ok (D : arr2 V) : check_distance_matrix_shape (Dense [nrow D; ncol D]) = Ok tt <-> nrow D = ncol D.
  Proof.
    unfold check_distance_matrix_shape, check_is_nD_array, guard, dim0, dim1. simpl.
    destruct (Nat.eqb_spec (nrow D) (ncol D)); simpl; split; congruence.
  Qed.
  Lemma check_metric_ok' metric : check_valid_metric_parameter metric = Ok tt <-> valid_metric metric = true.
  Proof.
    unfold check_valid_metric_parameter, valid_metric, guard. destruct (is_dist metric), (is_sim metric); simpl; split; congruence.
  Qed.

  Lemma ls_radii_inv (D : arr2 V) k metric test r : ls_radii part D k metric test = Ok r ->
    nrow D = ncol D /\ valid_metric metric = true /\ length r = nrow D /\
    forall i, i < nrow D -> ls_radius part (fill_diagonal D (ls_exclude metric)) (ls_train (nrow D) test)
      (ls_kth metric (nrow D) k) i = Ok (nth i r nnan).
  Proof.
    intros H. unfold ls_radii in H.
    apply bind_ok_inv in H as ([] & H1 & H). apply bind_ok_inv in H as ([] & H2 & H).
    split; [now apply check_shape_ok|]. split; [now apply check_metric_ok'|].
    split; [apply mapM_length in H; now rewrite seq_length in H|].
    intros i Hi. apply (mapM_nth _ _ _ i 0 nnan) in H; [|now rewrite seq_length]. now rewrite seq_nth in H.
  Qed.

  Definition ls_cell metric (D : arr2 V) (r : nat -> V) i j : V := ls_val vexp metric (at2 D i j) (r i) (r j).

  Lemma ls_serial_at (D : arr2 V) k metric test r : ls_radii part D k metric test = Ok r ->
    exists L, local_scaling_serial vexp part D k metric test = Ok L /\
      nrow L = nrow D /\ ncol L = nrow D /\
      forall i j, i < nrow D -> j < nrow D -> at2 L i j =
        if i =? j then ls_self metric
        else if i <? j then nadd (ls_cell metric D (fun a => nth a r nnan) i j) n0
        else nadd n0 (ls_cell metric D (fun a => nth a r nnan) j i).
  Proof.
    intros E. unfold local_scaling_serial. rewrite E. cbn [bind]. eexists. split; [reflexivity|].
    set (f := fun i j => if j =? i then ls_self_tmp metric
       else ls_val vexp metric (at2 (fill_diagonal D (ls_exclude metric)) i j) (nth i r nnan) (nth j r nnan)).
    assert (G : forall n, for_ n (fun i M => setrow M i i (nrow D) (f i)) (full2 (nrow D) (nrow D) n0)
             = for_ n (fun i M => setrow M i (i + 0) (nrow D) (f i)) (full2 (nrow D) (nrow D) n0)).
    { induction n as [|n IH]; [reflexivity|]. now rewrite !for_S, IH, Nat.add_0_r. }
    fold f. change (fun i M => setrow M i i (nrow D) (fun j => f i j)) with (fun i M => setrow M i i (nrow D) (f i)).
    rewrite G. cbn [fill_diagonal zip2 transpose nrow ncol at2].
    split; [apply (for_setrow_shape (fun i => i + 0))|]. split; [apply (for_setrow_shape (fun i => i + 0))|].
    intros i j Hi Hj. destruct (Nat.eqb_spec i j) as [|Hne]; [reflexivity|].
    rewrite !triu_from by assumption. rewrite !Nat.add_0_r.
    assert (Ef : forall a b, a <> b -> f a b = ls_cell metric D (fun a => nth a r nnan) a b).
    { intros a b Hab. unfold f, ls_cell. cbn [fill_diagonal at2].
      destruct (Nat.eqb_spec b a); [congruence|]. destruct (Nat.eqb_spec a b); [congruence|]. reflexivity. }
    replace (i <? nrow D) with true by (symmetry; apply Nat.ltb_lt; lia).
    replace (j <? nrow D) with true by (symmetry; apply Nat.ltb_lt; lia). cbn [andb].
    destruct (Nat.ltb_spec i j).
    - replace (i <=? j) with true by (symmetry; apply Nat.leb_le; lia).
      replace (j <=? i) with false by (symmetry; apply Nat.leb_gt; lia). now rewrite Ef.
    - replace (i <=? j) with false by (symmetry; apply Nat.leb_gt; lia).
      replace (j <=? i) with true by (symmetry; apply Nat.leb_le; lia). now rewrite Ef by lia.
  Qed.

  Lemma nicdm_radii_inv (D : arr2 V) k metric test r : nicdm_radii vsum part D k metric test = Ok r ->
    nrow D = ncol D /\ metric = "distance"%string /\ length r = nrow D /\
    forall i, i < nrow D -> nicdm_radius vsum part (fill_diagonal D ninf) (ls_train (nrow D) test) k i = Ok (nth i r nnan).
  Proof.
    intros H. unfold nicdm_radii in H.
    apply bind_ok_inv in H as ([] & H1 & H). apply bind_ok_inv in H as ([] & H2 & H).
    apply bind_ok_inv in H as ([] & H3 & H).
    split; [now apply check_shape_ok|]. split.
    { apply check_metric_ok' in H2. unfold guard in H3. unfold valid_metric in H2.
      destruct (is_sim metric); [discriminate|]. rewrite orb_false_r in H2. now apply String.eqb_eq. }
    split; [apply mapM_length in H; now rewrite seq_length in H|].
    intros i Hi. apply (mapM_nth _ _ _ i 0 nnan) in H; [|now rewrite seq_length]. now rewrite seq_nth in H.
  Qed.

  Definition nicdm_cell g (D : arr2 V) (r : nat -> V) i j : V := nicdm_val g (at2 D i j) (r i) (r j).

  Lemma nicdm_serial_at (D : arr2 V) k metric test r : nicdm_radii vsum part D k metric test = Ok r ->
    exists L, nicdm_serial vexp vln vsum part D k metric test = Ok L /\
      nrow L = nrow D /\ ncol L = nrow D /\
      forall i j, i < nrow D -> j < nrow D -> at2 L i j =
        if i =? j then nadd n0 n0
        else if i <? j then nadd (nicdm_cell (local_geomean vexp vln vsum r) D (fun a => nth a r nnan) i j) n0
        else nadd n0 (nicdm_cell (local_geomean vexp vln vsum r) D (fun a => nth a r nnan) j i).
  Proof.
    intros E. unfold nicdm_serial. rewrite E. cbn [bind]. eexists. split; [reflexivity|].
    cbn [zip2 transpose nrow ncol at2].
    split; [apply triu_shape|]. split; [apply triu_shape|].
    intros i j Hi Hj. rewrite !triu_only by assumption.
    replace (i <? nrow D) with true by (symmetry; apply Nat.ltb_lt; lia).
    replace (j <? nrow D) with true by (symmetry; apply Nat.ltb_lt; lia). cbn [andb].
    unfold nicdm_cell. cbn [fill_diagonal at2].
    destruct (Nat.eqb_spec i j) as [->|Hne]; [now rewrite Nat.ltb_irrefl|].
    rewrite (Nat.eqb_sym j i). destruct (Nat.eqb_spec i j); [congruence|].
    destruct (Nat.ltb_spec i j).
    - replace (j <? i) with false by (symmetry; apply Nat.ltb_ge; lia). reflexivity.
    - replace (j <? i) with true by (symmetry; apply Nat.ltb_lt; lia). reflexivity.
  Qed.
End Rows.
