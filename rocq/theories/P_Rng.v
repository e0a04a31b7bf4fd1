(** The permutations of forked workers, and what equal distances become. *)
From Coq Require Import String.
From Coq Require Import ZArith List Arith Lia Bool Permutation.
From Verif Require Import Py Num Arr Sort S_Neighbors M_IO M_Hubness M_HubnessClass M_Rng P_Hubness.
Import ListNotations.

(** the positions 0 ... k, without [p] *)
Definition skip (p t : nat) : nat := if t <? p then t else S t.
Definition skips (k p : nat) : list nat := map (skip p) (seq 0 k).

Lemma filter_skip p n : p < n ->
  filter (fun y => negb (y =? p)) (seq 0 n) = skips (n - 1) p.
Proof.
  intros H. unfold skips. replace n with (p + S (n - S p)) at 1 by lia. rewrite seq_app. cbn [seq plus].
  rewrite filter_app. cbn [filter]. rewrite Nat.eqb_refl. cbn [negb].
  replace (n - 1) with (p + (n - S p)) by lia. rewrite seq_app, map_app. f_equal.
  - transitivity (seq 0 p).
    + clear. rewrite <- (map_id (seq 0 p)) at 2. 
      assert (G : forall l, (forall x, In x l -> x < p) -> filter (fun y => negb (y =? p)) l = l).
      { induction l as [|x l IH]; intros Hl; [reflexivity|]. cbn [filter].
        replace (x =? p) with false by (symmetry; apply Nat.eqb_neq; specialize (Hl x (or_introl eq_refl)); lia).
        cbn [negb]. f_equal. apply IH. intros y Hy. apply Hl. now right. }
      rewrite map_id. apply G. intros x Hx. apply in_seq in Hx. lia.
    + rewrite <- (map_id (seq 0 p)) at 1. apply map_ext_in. intros x Hx. apply in_seq in Hx. unfold skip.
      replace (x <? p) with true by (symmetry; apply Nat.ltb_lt; lia). reflexivity.
  - cbn [plus].
    assert (G : forall l, (forall x, In x l -> p < x) -> filter (fun y => negb (y =? p)) l = l).
    { induction l as [|x l IH]; intros Hl; [reflexivity|]. cbn [filter].
      replace (x =? p) with false by (symmetry; apply Nat.eqb_neq; specialize (Hl x (or_introl eq_refl)); lia).
      cbn [negb]. f_equal. apply IH. intros y Hy. apply Hl. now right. }
    replace (p + 1) with (S p) by lia. replace (0 + p) with p by lia.
    rewrite G by (intros x Hx; apply in_seq in Hx; lia).
    rewrite <- (seq_shift (n - S p) p). apply map_ext_in. intros x Hx. apply in_seq in Hx. unfold skip.
    replace (x <? p) with false by (symmetry; apply Nat.ltb_ge; lia). reflexivity.
Qed.

Lemma skips_firstn k n p : k <= n -> firstn k (skips n p) = skips k p.
Proof.
  intros H. unfold skips. rewrite firstn_map. f_equal. replace n with (k + (n - k)) by lia.
  rewrite seq_app, firstn_app, seq_length, Nat.sub_diag, firstn_O, app_nil_r.
  rewrite firstn_all2 by (rewrite seq_length; lia). reflexivity.
Qed.

Lemma count_skips k p j :
  count_occ Nat.eq_dec (skips k p) j =
  if ((j <? p) && (j <? k)) || ((p <? j) && (j <=? k)) then 1 else 0.
Proof.
  assert (ND : NoDup (skips k p)).
  { apply FinFun.Injective_map_NoDup; [|apply seq_NoDup]. intros x y. unfold skip.
    destruct (Nat.ltb_spec x p), (Nat.ltb_spec y p); lia. }
  assert (I : In j (skips k p) <-> ((j <? p) && (j <? k)) || ((p <? j) && (j <=? k)) = true).
  { unfold skips. rewrite in_map_iff. split.
    - intros (t & <- & Ht). apply in_seq in Ht. unfold skip. destruct (Nat.ltb_spec t p).
      + replace (t <? p) with true by (symmetry; apply Nat.ltb_lt; lia).
        replace (t <? k) with true by (symmetry; apply Nat.ltb_lt; lia). reflexivity.
      + replace (p <? S t) with true by (symmetry; apply Nat.ltb_lt; lia).
        replace (S t <=? k) with true by (symmetry; apply Nat.leb_le; lia). apply orb_true_r.
    - intros H. apply orb_true_iff in H as [H|H]; apply andb_true_iff in H as [H1 H2].
      + apply Nat.ltb_lt in H1, H2. exists j. split; [|apply in_seq; lia]. unfold skip.
        replace (j <? p) with true by (symmetry; apply Nat.ltb_lt; lia). reflexivity.
      + apply Nat.ltb_lt in H1. apply Nat.leb_le in H2. exists (j - 1). split; [|apply in_seq; lia]. unfold skip.
        replace (j - 1 <? p) with false by (symmetry; apply Nat.ltb_ge; lia). lia. }
  destruct (_ || _) eqn:E.
  - apply NoDup_count_occ'; [exact ND|]. apply I. reflexivity.
  - apply count_occ_not_In. rewrite I. discriminate.
Qed.

Lemma count_all n k j : j < n ->
  count_occ Nat.eq_dec (concat (map (skips k) (seq 0 n))) j =
  if j <? k then n - 1 else if j =? k then k else 0.
Proof.
  intros Hj.
  assert (G : forall m, count_occ Nat.eq_dec (concat (map (skips k) (seq 0 m))) j =
    if j <? k then m - (if j <? m then 1 else 0) else if j =? k then Nat.min m k else 0).
  { induction m as [|m IH].
    - cbn [seq map concat count_occ]. destruct (j <? k), (j =? k); reflexivity.
    - rewrite seq_S, map_app, concat_app, count_occ_app, IH. cbn [map concat plus]. rewrite app_nil_r, count_skips.
      destruct (Nat.ltb_spec j k), (Nat.ltb_spec j m), (Nat.ltb_spec m j), (Nat.leb_spec j k), (Nat.ltb_spec j (S m)), (Nat.eqb_spec j k);
        cbn [andb orb]; lia. }
  rewrite G. destruct (Nat.ltb_spec j k), (Nat.ltb_spec j n), (Nat.eqb_spec j k); lia.
Qed.

Section Equal.
  Context {V : Type} {N : Num V} {toX : V -> xr} (CL : CmpLaws V N toX).

  Lemma ins_end (l : list V) x p : (forall y, In y p -> sle (vat l x) (vat l y) = false) -> ins l x p = p ++ [x].
  Proof.
    induction p as [|y p IH]; intros H; [reflexivity|]. cbn. rewrite H by now left. f_equal. apply IH. intros; apply H; now right.
  Qed.

  (** all values equal except one +inf *)
  Lemma isort_equal (l : list V) p c : nisfin c = true ->
    (forall y, y < length l -> vat l y = if y =? p then ninf else c) ->
    forall m a, a + m <= length l ->
    isort l (seq a m) = filter (fun y => negb (y =? p)) (seq a m) ++ (if (a <=? p) && (p <? a + m) then [p] else []).
  Proof.
    intros Fc Hl.
    assert (S1 : sle c c = true) by apply (sle_refl CL).
    assert (Nc : nisnan c = false).
    { rewrite (cl_nan _ _ _ CL). rewrite (cl_fin _ _ _ CL) in Fc. now destruct (toX c). }
    assert (S2 : sle c ninf = true) by now apply (sle_inf CL).
    assert (S3 : sle ninf c = false).
    { unfold sle. rewrite (cl_nan _ _ _ CL ninf), (cl_inf _ _ _ CL), Nc. cbn.
      rewrite (cl_le _ _ _ CL), (cl_inf _ _ _ CL). rewrite (cl_fin _ _ _ CL) in Fc. now destruct (toX c). }
    induction m as [|m IH]; intros a Ha.
    - cbn [seq isort fold_right filter app]. destruct (Nat.leb_spec a p), (Nat.ltb_spec p (a + 0)); cbn [andb]; try reflexivity; lia.
    - cbn [seq isort fold_right]. fold (isort l (seq (S a) m)). rewrite IH by lia. cbn [filter].
      destruct (Nat.eqb_spec a p) as [->|Hne].
      + cbn [negb]. replace (S p <=? p) with false by (symmetry; apply Nat.leb_gt; lia). cbn [andb]. rewrite app_nil_r.
        rewrite Nat.leb_refl. replace (p <? p + S m) with true by (symmetry; apply Nat.ltb_lt; lia). cbn [andb].
        apply ins_end. intros y Hy. apply filter_In in Hy as (Hy & Hb). apply in_seq in Hy.
        rewrite (Hl p), (Hl y) by lia. rewrite Nat.eqb_refl. destruct (y =? p); [discriminate|exact S3].
      + cbn [negb]. replace ((S a <=? p) && (p <? S a + m)) with ((a <=? p) && (p <? a + S m)).
        2:{ destruct (Nat.leb_spec (S a) p), (Nat.ltb_spec p (S a + m)), (Nat.leb_spec a p), (Nat.ltb_spec p (a + S m)); try reflexivity; lia. }
        cbn [app]. set (r := _ ++ _). assert (Hr : forall y, In y r -> y < length l).
        { intros y Hy. unfold r in Hy. apply in_app_or in Hy as [Hy|Hy].
          - apply filter_In in Hy as (Hy & _). apply in_seq in Hy. lia.
          - destruct ((a <=? p) && (p <? a + S m)) eqn:E; [|destruct Hy]. destruct Hy as [<-|[]].
            apply andb_true_iff in E as (_ & E). apply Nat.ltb_lt in E. lia. }
        destruct r as [|y r']; [reflexivity|]. cbn [ins]. rewrite (Hl a) by lia.
        replace (a =? p) with false by (symmetry; now apply Nat.eqb_neq).
        rewrite (Hl y) by (apply Hr; now left). destruct (y =? p); [now rewrite S2|now rewrite S1].
  Qed.

  Lemma take_take (rp l : list nat) k : k <= length l ->
    take 0 rp (take 0 l (seq 0 k)) = map (fun t => nth t rp 0) (firstn k l).
  Proof.
    intros H. unfold take. f_equal. apply (nth_ext _ _ 0 0).
    - rewrite map_length, seq_length, firstn_length. lia.
    - intros t Ht. rewrite map_length, seq_length in Ht. rewrite (nth_indep _ 0 (nth 0 l 0)) by now rewrite map_length, seq_length.
      rewrite (map_nth (fun x => nth x l 0)), seq_nth by exact Ht. cbn [plus].
      rewrite <- (firstn_skipn k l) at 1. rewrite app_nth1; [reflexivity|]. rewrite firstn_length. lia.
  Qed.

  Lemma zarange_norm m k : k <= m -> map (py_norm m) (zarange 0 (Z.of_nat k)) = seq 0 k.
  Proof.
    intros H. unfold zarange. rewrite map_map. rewrite Z.sub_0_r, Nat2Z.id. rewrite <- (map_id (seq 0 k)) at 2.
    apply map_ext_in. intros i Hi. apply in_seq in Hi. unfold py_norm.
    replace (0 + Z.of_nat i <? 0)%Z with false by (symmetry; apply Z.ltb_ge; lia). lia.
  Qed.

  Lemma eff_equal (D : arr2 V) c i j : nrow D = ncol D -> nisfin c = true ->
    (forall x y, x < nrow D -> y < nrow D -> x <> y -> at2 D x y = c) -> i < nrow D -> j < nrow D ->
    eff "distance" D i j = if j =? i then ninf else c.
  Proof.
    intros Sq Fc H Hi Hj. unfold eff, usable. rewrite Sq, Nat.eqb_refl, (Nat.eqb_sym j i).
    destruct (Nat.eqb_spec i j) as [->|Hne]; [cbn; rewrite ?andb_false_r; reflexivity|].
    rewrite H by lia. rewrite Fc. reflexivity.
  Qed.

  Lemma equal_row (D : arr2 V) c i k rp p : nrow D = ncol D -> nisfin c = true ->
    (forall x y, x < nrow D -> y < nrow D -> x <> y -> at2 D x y = c) -> i < nrow D -> k < nrow D ->
    Permutation rp (seq 0 (nrow D)) -> p < nrow D -> nth p rp 0 = i ->
    hub_row_nn ref_argpart "distance" (hub_kth_par "distance" (nrow D) (ncol D) (Z.of_nat k)) (Some rp)
      (hub_row "distance" (hub_prepare false "distance" D) i) = Ok (map (fun t => nth t rp 0) (skips k p)).
  Proof.
    intros Sq Fc H Hi Hk Pm Hp Ep. unfold hub_row_nn, np_argpartition, hub_kth_par. cbn [is_sim].
    set (d := hub_row _ _ _). assert (Ld : length d = nrow D) by (unfold d; rewrite hub_row_length; destruct (prepare_shape false "distance" D) as (_ & ->); now symmetry).
    assert (Lr : length rp = nrow D) by (rewrite (Permutation_length Pm), seq_length; reflexivity).
    assert (Lt : length (take nnan d rp) = nrow D) by (unfold take; now rewrite map_length).
    change (is_sim "distance") with false. cbv iota. rewrite Lt, zarange_legal by lia. cbn [bind].
    rewrite zarange_norm by lia. rewrite Ld, zarange_norm by lia.
    change (hub_order "distance" ?x) with x. f_equal. unfold ref_argpart, ref_argsort. rewrite Lt.
    rewrite (isort_equal (take nnan d rp) p c Fc).
    - cbn [plus Nat.leb andb]. replace (p <? nrow D) with true by (symmetry; now apply Nat.ltb_lt).
      rewrite filter_skip by exact Hp. rewrite take_take.
      2:{ rewrite app_length. unfold skips. rewrite map_length, seq_length. lia. }
      rewrite firstn_app. unfold skips at 2. rewrite map_length, seq_length.
      replace (k - (nrow D - 1)) with 0 by lia. rewrite firstn_O, app_nil_r, skips_firstn by lia. reflexivity.
    - rewrite Lt. intros y Hy. unfold vat, take. rewrite (nth_indep _ nnan (nth 0 d nnan)) by now rewrite map_length, Lr.
      rewrite (map_nth (fun x => nth x d nnan)). fold (vat d (nth y rp 0)).
      assert (Hb : nth y rp 0 < nrow D).
      { assert (In (nth y rp 0) (seq 0 (nrow D))) as Hin by (apply (Permutation_in _ Pm), nth_In; lia). apply in_seq in Hin. lia. }
      unfold d. rewrite (hub_row_eff CL false "distance" D i (nth y rp 0)) by (rewrite <- ?Sq; assumption). rewrite (eff_equal D c) by assumption.
      replace (nth y rp 0 =? i) with (y =? p); [reflexivity|].
      destruct (Nat.eqb_spec y p) as [->|Hne]; [symmetry; now apply Nat.eqb_eq|]. symmetry. apply Nat.eqb_neq. intros E.
      apply Hne. assert (NDr : NoDup rp) by (eapply Permutation_NoDup; [apply Permutation_sym, Pm|apply seq_NoDup]).
      apply (proj1 (NoDup_nth rp 0) NDr); try lia; congruence.
    - rewrite Lt. lia.
  Qed.

  (** the counts of a call in which every row is shuffled by the same permutation *)
  Lemma equal_counts (D : arr2 V) c k rp rps : nrow D = ncol D -> nisfin c = true ->
    (forall x y, x < nrow D -> y < nrow D -> x <> y -> at2 D x y = c) -> k < nrow D ->
    Permutation rp (seq 0 (nrow D)) -> (forall i, i < nrow D -> rps i = rp) ->
    exists Dk, par_rows ref_argpart false D (Z.of_nat k) "distance" true rps = Ok Dk /\
      forall j, j < nrow D -> nth (nth j rp 0) (bincount (concat Dk) (ncol D)) 0 =
        if j <? k then nrow D - 1 else if j =? k then k else 0.
  Proof.
    intros Sq Fc H Hk Pm Hr. set (n := nrow D) in *.
    assert (Lr : length rp = n) by (rewrite (Permutation_length Pm), seq_length; reflexivity).
    assert (NDr : NoDup rp) by (eapply Permutation_NoDup; [apply Permutation_sym, Pm|apply seq_NoDup]).
    assert (Hpos : forall i, i < n -> exists p, p < n /\ nth p rp 0 = i).
    { intros i Hi. assert (Hin : In i rp) by (apply (Permutation_in _ (Permutation_sym Pm)), in_seq; lia).
      destruct (In_nth _ _ 0 Hin) as (p & Hp & E). exists p. split; [lia|exact E]. }
    assert (Bd : forall t, t < n -> nth t rp 0 < n).
    { intros t Ht. assert (In (nth t rp 0) (seq 0 n)) as Hin by (apply (Permutation_in _ Pm), nth_In; lia). apply in_seq in Hin. lia. }
    set (row := fun i => hub_row_nn ref_argpart "distance" (hub_kth_par "distance" n (ncol D) (Z.of_nat k)) (Some rp)
                    (hub_row "distance" (hub_prepare false "distance" D) i)).
    set (rw := fun i => match row i with Ok l => l | Raise _ => [] end).
    assert (Rp : forall p, p < n -> row (nth p rp 0) = Ok (map (fun t => nth t rp 0) (skips k p))).
    { intros p Hp. unfold row. apply (equal_row D c); auto. }
    exists (map rw (seq 0 n)). split.
    - unfold par_rows. fold n.
      assert (G : forall l, (forall i, In i l -> i < n) ->
        mapM (fun i => hub_row_nn ref_argpart "distance" (hub_kth_par "distance" n (ncol D) (Z.of_nat k))
          (hub_shuffle true rps i) (hub_row "distance" (hub_prepare false "distance" D) i)) l = Ok (map rw l)).
      { induction l as [|i l IH]; intros Hl; [reflexivity|]. cbn [mapM map].
        rewrite IH by (intros; apply Hl; now right). cbn [hub_shuffle]. rewrite Hr by (apply Hl; now left).
        destruct (Hpos i) as (p & Hp & <-); [apply Hl; now left|].
        assert (rw (nth p rp 0) = map (fun t => nth t rp 0) (skips k p)) as -> by (unfold rw; now rewrite Rp).
        fold (row (nth p rp 0)). now rewrite Rp. }
      apply G. intros i Hi. apply in_seq in Hi. lia.
    - intros j Hj. set (v := nth j rp 0).
      assert (Hv : v < n) by now apply Bd.
      unfold bincount. rewrite <- Sq. fold n.
      rewrite (nth_indep _ 0 (count_occ Nat.eq_dec (concat (map rw (seq 0 n))) 0)) by (rewrite map_length, seq_length; lia).
      rewrite (map_nth (fun x => count_occ Nat.eq_dec (concat (map rw (seq 0 n))) x)), seq_nth by lia. cbn [plus].
      assert (Pc : Permutation (concat (map rw (seq 0 n))) (map (fun t => nth t rp 0) (concat (map (skips k) (seq 0 n))))).
      { rewrite concat_map, map_map.
        assert (E : map (fun p => map (fun t => nth t rp 0) (skips k p)) (seq 0 n) = map rw rp).
        { transitivity (map rw (map (fun p => nth p rp 0) (seq 0 n))).
          - rewrite map_map. apply map_ext_in. intros p Hp. apply in_seq in Hp. unfold rw. now rewrite Rp by lia.
          - f_equal. apply (nth_ext _ _ 0 0); [now rewrite map_length, seq_length|]. intros t Ht.
            rewrite map_length, seq_length in Ht. rewrite (nth_indep _ 0 (nth 0 rp 0)) by now rewrite map_length, seq_length.
            now rewrite (map_nth (fun p => nth p rp 0)), seq_nth. }
        rewrite E. rewrite <- !flat_map_concat_map. apply Permutation_flat_map. now apply Permutation_sym. }
      rewrite (Permutation_count_occ Nat.eq_dec) in Pc. rewrite Pc. rewrite <- (count_all n k j Hj).
      unfold v.
      assert (G : forall l, (forall t, In t l -> t < n) ->
        count_occ Nat.eq_dec (map (fun t => nth t rp 0) l) (nth j rp 0) = count_occ Nat.eq_dec l j).
      { induction l as [|t l IH]; intros Hl; [reflexivity|]. cbn [map count_occ].
        rewrite IH by (intros; apply Hl; now right).
        destruct (Nat.eq_dec t j) as [->|Hne]; [now destruct (Nat.eq_dec (nth j rp 0) (nth j rp 0))|].
        destruct (Nat.eq_dec (nth t rp 0) (nth j rp 0)) as [E|]; [|reflexivity]. exfalso. apply Hne.
        apply (proj1 (NoDup_nth rp 0) NDr); try lia. specialize (Hl t (or_introl eq_refl)). lia. }
      apply G. intros t Ht. apply in_concat in Ht as (l & Hl & Ht). apply in_map_iff in Hl as (p & <- & Hp).
      unfold skips in Ht. apply in_map_iff in Ht as (u & <- & Hu). apply in_seq in Hu. unfold skip. destruct (u <? p); lia.
  Qed.

  Lemma count_concat (rw : nat -> list nat) (P : nat -> bool) v L :
    (forall i, In i L -> P i = true -> In v (rw i)) ->
    length (filter P L) <= count_occ Nat.eq_dec (concat (map rw L)) v.
  Proof.
    induction L as [|i L IH]; intros H; [cbn; lia|]. cbn [map concat filter]. rewrite count_occ_app.
    assert (K := IH (fun i Hi => H i (or_intror Hi))). destruct (P i) eqn:E; cbn [length]; [|lia].
    assert (C := proj1 (count_occ_In Nat.eq_dec (rw i) v) (H i (or_introl eq_refl) E)). lia.
  Qed.

  Lemma filter_and_ne (P : nat -> bool) v L : NoDup L ->
    length (filter P L) <= S (length (filter (fun i => P i && negb (i =? v)) L)).
  Proof.
    induction L as [|i L IH]; intros H; [cbn; lia|]. inversion H as [|x l Hn Hd]; subst. specialize (IH Hd). cbn [filter].
    destruct (P i) eqn:E; cbn [andb length]; [|exact IH]. destruct (Nat.eqb_spec i v) as [->|]; cbn [negb length]; [|lia].
    apply le_n_S. clear IH H Hd. induction L as [|y L IH]; [cbn; lia|]. cbn [filter].
    assert (y <> v) by (intros ->; apply Hn; now left). apply Nat.eqb_neq in H. rewrite H. cbn [negb]. rewrite andb_true_r.
    specialize (IH ltac:(intros Hv; apply Hn; now right)). destruct (P y); cbn [length]; lia.
  Qed.

  (** rows that use the same permutation have the same first objects as neighbours *)
  Lemma equal_counts_round (D : arr2 V) c k rps rp P : nrow D = ncol D -> nisfin c = true ->
    (forall x y, x < nrow D -> y < nrow D -> x <> y -> at2 D x y = c) -> k < nrow D ->
    (forall i, i < nrow D -> Permutation (rps i) (seq 0 (nrow D))) ->
    Permutation rp (seq 0 (nrow D)) -> (forall i, i < nrow D -> P i = true -> rps i = rp) ->
    exists Dk, par_rows ref_argpart false D (Z.of_nat k) "distance" true rps = Ok Dk /\
      forall j, j < k -> length (filter P (seq 0 (nrow D))) - 1 <= nth (nth j rp 0) (bincount (concat Dk) (ncol D)) 0.
  Proof.
    intros Sq Fc H Hk Pm Pr HP. set (n := nrow D) in *.
    set (row := fun i => hub_row_nn ref_argpart "distance" (hub_kth_par "distance" n (ncol D) (Z.of_nat k)) (Some (rps i))
                    (hub_row "distance" (hub_prepare false "distance" D) i)).
    set (rw := fun i => match row i with Ok l => l | Raise _ => [] end).
    assert (R : forall i, i < n -> row i = Ok (rw i) /\ forall j, j < k -> nth j (rps i) 0 <> i -> In (nth j (rps i) 0) (rw i)).
    { intros i Hi. assert (Hin : In i (rps i)) by (apply (Permutation_in _ (Permutation_sym (Pm i Hi))), in_seq; lia).
      destruct (In_nth _ _ 0 Hin) as (p & Hp & E). assert (Lr : length (rps i) = n) by (rewrite (Permutation_length (Pm i Hi)), seq_length; reflexivity).
      assert (Hr : row i = Ok (map (fun t => nth t (rps i) 0) (skips k p))) by (unfold row; apply (equal_row D c); auto; lia).
      unfold rw. rewrite Hr. split; [reflexivity|]. intros j Hj Hne. apply in_map_iff. exists j. split; [reflexivity|].
      apply (count_occ_In Nat.eq_dec). rewrite count_skips.
      assert (j <> p) by (intros ->; contradiction).
      destruct (Nat.ltb_spec j p), (Nat.ltb_spec j k), (Nat.ltb_spec p j), (Nat.leb_spec j k); cbn [andb orb]; lia. }
    exists (map rw (seq 0 n)). split.
    - unfold par_rows. fold n.
      assert (G : forall l, (forall i, In i l -> i < n) ->
        mapM (fun i => hub_row_nn ref_argpart "distance" (hub_kth_par "distance" n (ncol D) (Z.of_nat k))
          (hub_shuffle true rps i) (hub_row "distance" (hub_prepare false "distance" D) i)) l = Ok (map rw l)).
      { induction l as [|i l IH]; intros Hl; [reflexivity|]. cbn [mapM map].
        rewrite IH by (intros; apply Hl; now right). cbn [hub_shuffle].
        fold (row i). rewrite (proj1 (R i (Hl i (or_introl eq_refl)))). reflexivity. }
      apply G. intros i Hi. apply in_seq in Hi. lia.
    - intros j Hj. set (v := nth j rp 0).
      assert (Lr : length rp = n) by (rewrite (Permutation_length Pr), seq_length; reflexivity).
      assert (Hv : v < n).
      { assert (In v (seq 0 n)) as Hin by (apply (Permutation_in _ Pr), nth_In; lia). apply in_seq in Hin. lia. }
      unfold bincount. rewrite <- Sq. fold n.
      rewrite (nth_indep _ 0 (count_occ Nat.eq_dec (concat (map rw (seq 0 n))) 0)) by (rewrite map_length, seq_length; lia).
      rewrite (map_nth (fun x => count_occ Nat.eq_dec (concat (map rw (seq 0 n))) x)), seq_nth by lia. cbn [plus].
      assert (C : length (filter (fun i => P i && negb (i =? v)) (seq 0 n)) <= count_occ Nat.eq_dec (concat (map rw (seq 0 n))) v).
      { apply count_concat. intros i Hi Hb. apply in_seq in Hi. apply andb_true_iff in Hb as (Hb & Hne).
        apply negb_true_iff, Nat.eqb_neq in Hne. unfold v. rewrite <- (HP i) by (auto; lia).
        apply R; [lia|exact Hj|]. rewrite (HP i) by (auto; lia). fold v. congruence. }
      pose proof (filter_and_ne P v (seq 0 n) (seq_NoDup _ _)). lia.
  Qed.
End Equal.
