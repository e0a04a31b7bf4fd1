(** C05: what the serial code returns for wide similarity matrices. *)
From Coq Require Import String.
From Coq Require Import ZArith List Arith Lia Bool Permutation.
From Verif Require Import Py Num Arr Sort Conc S_Neighbors P_Neighbors M_IO M_Hubness P_Hubness P_HubnessMain.
Import ListNotations.

Section Wide.
  Context {V : Type} {N : Num V} {toX : V -> xr} (CL : CmpLaws V N toX).

  Lemma pigeon_le (l : list nat) b : NoDup l -> (forall x, In x l -> x < b) -> length l <= b.
  Proof.
    intros Hnd H. rewrite <- (seq_length b 0). apply NoDup_incl_length; [assumption|].
    intros x Hx. apply in_seq. specialize (H x Hx). lia.
  Qed.

  (** on a strictly increasing array, the element of rank k sits at index k *)
  Lemma argpart_increasing (l : list V) ks p k :
    is_argpart l ks p -> In k ks -> k < length l ->
    (forall x y, x < y -> y < length l -> nlt (vat l x) (vat l y) = true) ->
    nth k p 0 = k.
  Proof.
    intros (Hp & Hs) Hk Hkl Hinc.
    pose proof (perm_seq_length _ _ Hp) as Lp.
    pose proof (perm_seq_NoDup _ _ Hp) as Hnd.
    set (x := nth k p 0).
    assert (Hx : x < length l) by (now apply (perm_seq_nth p)).
    assert (Hdist : forall a b, a < length l -> b < length l -> a <> b -> nth a p 0 <> nth b p 0).
    { intros a b Ha Hb Hab E. apply Hab. apply (proj1 (NoDup_nth p 0) Hnd); auto; lia. }
    assert (Hlow : forall y, In y (firstn k p) -> y < x).
    { intros y Hy. apply In_nth_firstn in Hy as (a & Ha & Ha' & <-).
      destruct (Hs k Hk a) as (H1 & _). specialize (H1 Ha). fold x in H1.
      assert (Hne : nth a p 0 <> x) by (apply Hdist; lia).
      destruct (lt_eq_lt_dec (nth a p 0) x) as [[|]|Hgt]; [assumption|contradiction|].
      assert (Hal : nth a p 0 < length l) by (apply (perm_seq_nth p); auto; lia).
      pose proof (Hinc x (nth a p 0) Hgt Hal) as Hlt.
      rewrite (nlt_not_sle CL _ _ Hlt) in H1. discriminate. }
    assert (Hhigh : forall y, In y (skipn (S k) p) -> x < y).
    { intros y Hy. apply In_skipn_pos in Hy as (a & Ha & Ha' & <-).
      destruct (Hs k Hk a) as (_ & H2). specialize (H2 ltac:(lia) ltac:(lia)). fold x in H2.
      assert (Hne : nth a p 0 <> x) by (apply Hdist; lia).
      destruct (lt_eq_lt_dec (nth a p 0) x) as [[Hlt|]|]; [|contradiction|assumption].
      pose proof (Hinc (nth a p 0) x Hlt Hx) as Hl.
      rewrite (nlt_not_sle CL _ _ Hl) in H2. discriminate. }
    assert (k <= x).
    { pose proof (pigeon_le (firstn k p) x (NoDup_firstn k p Hnd) Hlow) as HL.
      rewrite firstn_length_le in HL; lia. }
    assert (length l - S k <= length l - S x).
    { pose proof (pigeon_le (map (fun y => y - S x) (skipn (S k) p)) (length l - S x)) as HL.
      rewrite map_length, skipn_length, Lp in HL. apply HL.
      - apply NoDup_map_in.
        + intros a b Ha Hb. apply Hhigh in Ha. apply Hhigh in Hb. lia.
        + now apply NoDup_skipn.
      - intros z Hz. apply in_map_iff in Hz as (y & <- & Hy).
        pose proof (Hhigh y Hy). assert (y < length l); [|lia].
        apply (perm_seq_In p); [assumption|]. rewrite <- (firstn_skipn (S k) p).
        apply in_or_app. now right. }
    lia.
  Qed.

  Lemma wide_row_inc metric (D : arr2 V) sparse i :
    is_sim metric = true -> valid_metric metric = true ->
    nrow D <> ncol D -> i < nrow D ->
    (forall x, x < ncol D -> nisfin (at2 D i x) = true) ->
    (forall x y, x < y -> y < ncol D -> nlt (at2 D i x) (at2 D i y) = true) ->
    forall x y, x < y -> y < ncol D ->
      nlt (vat (hub_row metric (hub_prepare sparse metric D) i) x)
          (vat (hub_row metric (hub_prepare sparse metric D) i) y) = true.
  Proof.
    intros Hs Hv Hne Hi Hfin Hinc x y Hxy Hy.
    rewrite !(hub_row_eff CL) by lia.
    assert (Hus : forall j, j < ncol D -> usable metric D i j = true).
    { intros j Hj. unfold usable. rewrite Hfin by assumption.
      apply Nat.eqb_neq in Hne. rewrite Hne.
      destruct (valid_metric_cases metric Hv) as [(-> & _ & E)|(_ & E & _)]; [congruence|].
      now rewrite E. }
    unfold eff. rewrite !Hus by lia. now apply Hinc.
  Qed.

  (** rows strictly increasing, similarity, n < m: rank n-1, n-2, ... n-k is
      returned instead of m-1, ..., m-k *)
  Lemma serial_sim_wide argpart (AP : argpart_ok argpart) sparse (D : arr2 V) (k : nat) se rps :
    nrow D < ncol D -> k <= nrow D -> rps_wf D rps ->
    (forall i x, i < nrow D -> x < ncol D -> nisfin (at2 D i x) = true) ->
    (forall i x y, i < nrow D -> x < y -> y < ncol D -> nlt (at2 D i x) (at2 D i y) = true) ->
    exists o, hubness_serial argpart sparse D (Z.of_nat k) "similarity" se rps = Ok o /\
      out_Dk o = repeat (rev (seq (nrow D - k) k)) (nrow D).
  Proof.
    intros Hnm Hk Hrp Hfin Hinc. unfold hubness_serial.
    change (check_valid_metric_parameter "similarity") with (Ok tt). simpl.
    rewrite hub_k_of_nat by lia.
    replace (Nat.min k (ncol D - 1)) with k by lia.
    replace (Z.of_nat k <? 0)%Z with false by (symmetry; apply Z.ltb_ge; lia).
    simpl.
    assert (G : forall i, In i (seq 0 (nrow D)) ->
       hub_row_nn argpart "similarity" (hub_kth_ser "similarity" (nrow D) (ncol D) (Z.of_nat k))
          (hub_shuffle se rps i) (hub_row "similarity" (hub_prepare sparse "similarity" D) i)
       = Ok (rev (seq (nrow D - k) k))).
    { intros i Hi. apply in_seq in Hi.
      pose proof (hub_row_length "similarity" (hub_prepare sparse "similarity" D) i) as Lr.
      destruct (prepare_shape sparse "similarity" D) as (_ & Pc). rewrite Pc in Lr.
      unfold hub_kth_ser. change (is_sim "similarity") with true. cbv iota.
      destruct (hub_row_nn_argpart argpart AP "similarity"
          (zarange (Z.of_nat (nrow D) - Z.of_nat k) (Z.of_nat (nrow D)))
          (hub_shuffle se rps i) (hub_row "similarity" (hub_prepare sparse "similarity" D) i))
        as (p & Hp & E).
      { rewrite Lr. apply (hub_shuffle_wf D); auto. lia. }
      { apply zarange_legal; rewrite ?Lr; lia. }
      rewrite E. f_equal. unfold hub_order. change (is_sim "similarity") with true. cbv iota.
      f_equal. rewrite Lr in *.
      replace (Z.of_nat (nrow D) - Z.of_nat k)%Z with (Z.of_nat (nrow D - k)) in * by lia.
      assert (Ez : map (py_norm (ncol D))
        (zarange (Z.of_nat (nrow D - k)) (Z.of_nat (nrow D))) = seq (nrow D - k) k).
      { replace (Z.of_nat (nrow D)) with (Z.of_nat (nrow D - k + k)) by lia.
        apply zarange_norm. lia. }
      rewrite Ez in *. unfold take.
      rewrite <- (map_id (seq (nrow D - k) k)) at 2. apply map_ext_in.
      intros a Ha. eapply argpart_increasing; [exact Hp|assumption| |].
      - apply in_seq in Ha. rewrite Lr. lia.
      - rewrite Lr. apply wide_row_inc; auto; try lia.
        + intros; apply Hfin; lia.
        + intros; apply Hinc; lia. }
    rewrite (mapM_ext _ (fun _ => Ok (rev (seq (nrow D - k) k))) _ G).
    assert (R : forall l : list nat, mapM (fun _ => Ok (rev (seq (nrow D - k) k))) l
                = Ok (repeat (rev (seq (nrow D - k) k)) (length l))).
    { induction l as [|a l IH]; [reflexivity|]. cbn [mapM repeat length bind]. rewrite IH. reflexivity. }
    rewrite R, seq_length. simpl. eexists. split; reflexivity.
  Qed.

  (** the parallel code returns the right ones *)
  Lemma parallel_sim_wide argpart (AP : argpart_ok argpart) sparse (D : arr2 V) (k : nat) se rps r :
    nrow D < ncol D -> k < ncol D -> rps_wf D rps ->
    (forall i x, i < nrow D -> x < ncol D -> nisfin (at2 D i x) = true) ->
    (forall i x y, i < nrow D -> x < y -> y < ncol D -> nlt (at2 D i x) (at2 D i y) = true) ->
    hubness_parallel argpart sparse D (Z.of_nat k) "similarity" se rps false r ->
    exists o, r = Ok o /\ out_Dk o = repeat (rev (seq (ncol D - k) k)) (nrow D).
  Proof.
    intros Hnm Hk Hrp Hfin Hinc H.
    apply (hubness_parallel_det CL argpart AP) in H; [|assumption].
    unfold hubness_par_seq in H.
    change (check_valid_metric_parameter "similarity") with (Ok tt) in H. simpl in H.
    rewrite hub_k_of_nat in H by lia.
    replace (Nat.min k (ncol D - 1)) with k in H by lia.
    replace (Z.of_nat k <? 0)%Z with false in H by (symmetry; apply Z.ltb_ge; lia).
    simpl in H. unfold par_rows in H.
    assert (G : forall i, In i (seq 0 (nrow D)) ->
       hub_row_nn argpart "similarity" (hub_kth_par "similarity" (nrow D) (ncol D) (Z.of_nat k))
          (hub_shuffle se rps i) (hub_row "similarity" (hub_prepare sparse "similarity" D) i)
       = Ok (rev (seq (ncol D - k) k))).
    { intros i Hi. apply in_seq in Hi.
      pose proof (hub_row_length "similarity" (hub_prepare sparse "similarity" D) i) as Lr.
      destruct (prepare_shape sparse "similarity" D) as (_ & Pc). rewrite Pc in Lr.
      unfold hub_kth_par. change (is_sim "similarity") with true. cbv iota.
      destruct (hub_row_nn_argpart argpart AP "similarity"
          (zarange (Z.of_nat (ncol D) - Z.of_nat k) (Z.of_nat (ncol D)))
          (hub_shuffle se rps i) (hub_row "similarity" (hub_prepare sparse "similarity" D) i))
        as (p & Hp & E).
      { rewrite Lr. apply (hub_shuffle_wf D); auto. lia. }
      { apply zarange_legal; rewrite ?Lr; lia. }
      rewrite E. f_equal. unfold hub_order. change (is_sim "similarity") with true. cbv iota.
      f_equal. rewrite Lr in *.
      replace (Z.of_nat (ncol D) - Z.of_nat k)%Z with (Z.of_nat (ncol D - k)) in * by lia.
      assert (Ez : map (py_norm (ncol D))
        (zarange (Z.of_nat (ncol D - k)) (Z.of_nat (ncol D))) = seq (ncol D - k) k).
      { replace (zarange (Z.of_nat (ncol D - k)) (Z.of_nat (ncol D))) with
          (zarange (Z.of_nat (ncol D - k)) (Z.of_nat (ncol D - k + k))) by (do 2 f_equal; lia).
        apply zarange_norm. lia. }
      rewrite Ez in *. unfold take.
      rewrite <- (map_id (seq (ncol D - k) k)) at 2. apply map_ext_in.
      intros a Ha. eapply argpart_increasing; [exact Hp|assumption| |].
      - apply in_seq in Ha. rewrite Lr. lia.
      - rewrite Lr. apply wide_row_inc; auto; try lia.
        + intros; apply Hfin; lia.
        + intros; apply Hinc; lia. }
    rewrite (mapM_ext _ (fun _ => Ok (rev (seq (ncol D - k) k))) _ G) in H.
    assert (R : forall l : list nat, mapM (fun _ => Ok (rev (seq (ncol D - k) k))) l
                = Ok (repeat (rev (seq (ncol D - k) k)) (length l))).
    { induction l as [|a l IH]; [reflexivity|]. cbn [mapM repeat length bind]. rewrite IH. reflexivity. }
    rewrite R, seq_length in H. simpl in H. subst r. eexists. split; reflexivity.
  Qed.
End Wide.
