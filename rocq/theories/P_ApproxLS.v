(** Lemmas about local scaling, NICDM and DisSim Local with fixed vantage points. *)
From Coq Require Import String.
From Coq Require Import ZArith List Arith Lia Bool Permutation Reals Lra.
From Verif Require Import Py Num NumT Arr Sort S_Neighbors S_LS S_Approx M_Hubness M_SNN M_LS M_Dist M_HubnessClass M_Approx.
From Verif Require Import P_Neighbors P_Hubness P_LS P_NICDM P_HubnessClass3 P_ApproxFixed P_ApproxMPG.
Import ListNotations.
Local Open Scope nat_scope.

(** ** selecting *)
Section Sel.
  Context {V : Type} {N : Num V} {toX : V -> xr} (CL : CmpLaws V N toX).

  Lemma kth_one n k : kth_legal n [Z.of_nat k] = (k <? n).
  Proof.
    unfold kth_legal. cbn [forallb]. rewrite andb_true_r.
    destruct (Nat.ltb_spec k n) as [H|H].
    - apply andb_true_iff. split; [apply Z.leb_le; lia|apply Z.ltb_lt; lia].
    - apply andb_false_iff. right. apply Z.ltb_ge. lia.
  Qed.
  Lemma py_norm_nat n k : py_norm n (Z.of_nat k) = k.
  Proof. unfold py_norm. destruct (Z.ltb_spec (Z.of_nat k) 0); lia. Qed.
  Lemma np_part_one part (l : list V) k :
    np_partition part l [Z.of_nat k] = if k <? length l then Ok (part l [k]) else Raise ValueError.
  Proof. unfold np_partition. rewrite kth_one. cbn [map]. now rewrite py_norm_nat. Qed.
  Lemma np_argpart_one (ap : list V -> list nat -> list nat) (l : list V) k :
    np_argpartition ap l [Z.of_nat k] = if k <? length l then Ok (ap l [k]) else Raise ValueError.
  Proof. unfold np_argpartition. rewrite kth_one. cbn [map]. now rewrite py_norm_nat. Qed.

  Lemma nle_nlt_trans x y z : nle x y = true -> nlt y z = true -> nlt x z = true.
  Proof using CL.
    rewrite (cl_le _ _ _ CL), !(cl_lt _ _ _ CL). destruct (toX x), (toX y), (toX z); simpl; try discriminate; auto.
    destruct (Rle_dec r r0), (Rlt_dec r0 r1), (Rlt_dec r r1); try discriminate; auto. lra.
  Qed.

  (** leaving out the smallest value *)
  Lemma drop_zero (l o : list V) k v : Permutation l (n0 :: o) -> (forall x, In x o -> nle n0 x = true) -> 1 <= k ->
    kth_smallest l (S k) v -> has_rank o k v.
  Proof using CL.
    intros P Ho Hk (_ & H1 & H2). rewrite (filter_length_perm _ _ _ P) in H1. rewrite (filter_length_perm _ _ _ P) in H2.
    cbn [filter] in H1, H2. split.
    - destruct (nlt n0 v) eqn:E; [cbn [length] in H1; lia|].
      rewrite (filter_none (fun x => nlt x v) o); [cbn; lia|]. intros x Hx. apply not_true_is_false. intros Hl.
      assert (F := nle_nlt_trans _ _ _ (Ho x Hx) Hl). congruence.
    - destruct (nle n0 v); cbn [length] in H2; lia.
  Qed.

  (** one cut: everything up to position k is a set of k+1 smallest *)
  Lemma part_one_smallest (l q : list V) k : is_part l [k] q -> k < length l -> k_smallest l (S k) (firstn (S k) q).
  Proof using CL.
    intros (Hp & Hk) Hl. specialize (Hk k (or_introl eq_refl)). pose proof (Permutation_length Hp) as Lq.
    split; [rewrite firstn_length; lia|]. exists (skipn (S k) q). split; [rewrite firstn_skipn; now symmetry|].
    intros x y Hx Hy. apply (In_nth _ _ nnan) in Hx. destruct Hx as (a & Ha & Ea).
    apply (In_nth _ _ nnan) in Hy. destruct Hy as (b & Hb & Eb).
    rewrite firstn_length in Ha. rewrite nth_firstn_lt in Ea by lia.
    rewrite skipn_length in Hb. rewrite nth_skipn_add in Eb.
    apply (sle_not_lt CL). rewrite <- Ea, <- Eb.
    assert (B : sle (vat q k) (vat q (S k + b)) = true) by (apply (Hk (S k + b)); lia).
    destruct (Nat.eq_dec a k) as [->|Hne]; [exact B|]. eapply (sle_trans CL); [|exact B]. apply (Hk a). lia.
  Qed.

  (** the first [k] positions in reverse order: also a legal result *)
  Definition rev_argpart (l : list V) (ks : list nat) : list nat :=
    let p := ref_argsort l in
    match ks with [k] => rev (firstn k p) ++ skipn k p | _ => p end.
  Lemma rev_argpart_ok : argpart_ok rev_argpart.
  Proof using CL.
    intros l ks Hks. unfold rev_argpart. pose proof (ref_argsort_ok CL l) as (HP & HS).
    destruct ks as [|k [|k2 ks]]; try (apply argsort_argpart; [split; assumption|assumption]).
    specialize (Hks k (or_introl eq_refl)). set (p := ref_argsort l) in *.
    assert (Lp : length p = length l) by (rewrite (Permutation_length HP), seq_length; reflexivity).
    split.
    - rewrite <- Permutation_rev, firstn_skipn. exact HP.
    - intros k' [<-|[]] a.
      assert (Lr : length (rev (firstn k p)) = k) by (rewrite rev_length, firstn_length; lia).
      assert (Nk : nth k (rev (firstn k p) ++ skipn k p) 0 = nth k p 0).
      { rewrite app_nth2 by lia. rewrite Lr, nth_skipn_add. f_equal. lia. }
      rewrite Nk. split.
      + intros Ha. rewrite app_nth1 by lia.
        rewrite rev_nth by (rewrite firstn_length; lia). rewrite firstn_length.
        rewrite nth_firstn_lt by lia. apply HS; lia.
      + intros Ha Hl. rewrite app_nth2 by lia. rewrite Lr, nth_skipn_add. replace (k + (a - k)) with a by lia. apply HS; lia.
  Qed.
  Definition rev_part (l : list V) (ks : list nat) : list V := map (vat l) (rev_argpart l ks).
  Lemma rev_part_ok : part_ok rev_part.
  Proof using CL. intros l ks H. apply (argpart_part l ks (rev_argpart l ks)); [now apply rev_argpart_ok|exact H]. Qed.
End Sel.

(** ** the radii *)
Section LSF.
  Context {V : Type} {N : Num V} {toX : V -> xr} (CL : CmpLaws V N toX).
  Variables (sdist : string -> nat -> (nat -> V) -> (nat -> V) -> V) (part : list V -> list nat -> list V)
            (argpart : list V -> list nat -> list nat).

  (** distances of the vantage point j to all vantage points, a zero for itself *)
  Definition self_row (metric : string) (Xt : arr2 V) (j : nat) : list V :=
    map (fun l => if l =? j then n0 else sdist metric (ncol Xt) (at2 Xt j) (at2 Xt l)) (seq 0 (nrow Xt)).
  Definition other_row (metric : string) (Xt : arr2 V) (j : nat) : list V :=
    map (fun l => sdist metric (ncol Xt) (at2 Xt j) (at2 Xt l)) (but j (nrow Xt)).
  Lemma rowl_self metric Xt j : rowl (self_dists sdist metric Xt) j = self_row metric Xt j.
  Proof.
    unfold rowl, self_row. cbn [ncol self_dists fill_diagonal]. apply map_ext. intros l. cbn [at2 self_dists fill_diagonal].
    now rewrite (Nat.eqb_sym j l).
  Qed.
  Lemma self_row_perm metric Xt j : j < nrow Xt -> Permutation (self_row metric Xt j) (n0 :: other_row metric Xt j).
  Proof.
    intros Hj. unfold self_row, other_row, but.
    assert (P : Permutation (seq 0 (nrow Xt)) (j :: filter (fun l => negb (l =? j)) (seq 0 (nrow Xt)))).
    { apply perm_pull; [apply seq_NoDup|apply in_seq; lia]. }
    rewrite P at 1. cbn [map]. rewrite Nat.eqb_refl. apply perm_skip.
    erewrite map_ext_in; [reflexivity|]. intros l Hl. apply filter_In in Hl as (_ & Hl). destruct (l =? j); [discriminate|reflexivity].
  Qed.
  Lemma self_row_length metric Xt j : length (self_row metric Xt j) = nrow Xt.
  Proof. unfold self_row. now rewrite map_length, seq_length. Qed.

  Lemma ls_fit_eq metric k Xt : known_metric metric = true -> 0 < nrow Xt ->
    ls_fit sdist part metric k Xt =
    if k <? nrow Xt then Ok (map (fun j => slice (part (self_row metric Xt j) [k]) 1 (k + 1)) (seq 0 (nrow Xt))) else Raise ValueError.
  Proof.
    intros Hm Hn. unfold ls_fit. rewrite Hm. cbn [negb guard bind]. destruct (Nat.ltb_spec k (nrow Xt)) as [H|H].
    - apply mapM_ok_map. intros j Hj. rewrite rowl_self, np_part_one, self_row_length.
      destruct (Nat.ltb_spec k (nrow Xt)); [reflexivity|lia].
    - destruct (nrow Xt) as [|n] eqn:En; [lia|]. cbn [seq mapM]. rewrite rowl_self, np_part_one, self_row_length, En.
      destruct (Nat.ltb_spec k (S n)); [lia|reflexivity].
  Qed.
  Lemma ls_rtest_eq k (D : arr2 V) : 1 <= k ->
    ls_rtest part k D = if (k - 1 <? ncol D) || (nrow D =? 0) then Ok (map (fun i => slice (part (rowl D i) [k - 1]) 0 k) (seq 0 (nrow D))) else Raise ValueError.
  Proof.
    intros Hk. unfold ls_rtest. replace (Z.of_nat k - 1)%Z with (Z.of_nat (k - 1)) by lia.
    assert (L : forall i, length (rowl D i) = ncol D) by (intros; unfold rowl; now rewrite map_length, seq_length).
    destruct (Nat.ltb_spec (k - 1) (ncol D)) as [H|H]; cbn [orb].
    - apply mapM_ok_map. intros i Hi. rewrite np_part_one, L. destruct (Nat.ltb_spec (k - 1) (ncol D)); [reflexivity|lia].
    - destruct (nrow D) as [|n]; [reflexivity|]. cbn [Nat.eqb seq mapM]. rewrite np_part_one, L.
      destruct (Nat.ltb_spec (k - 1) (ncol D)); [lia|reflexivity].
  Qed.
  Lemma nth_slice1 (q : list V) k : 1 <= k -> k < length q -> nth (k - 1) (slice q 1 (k + 1)) nnan = vat q k.
  Proof.
    intros Hk Hl. unfold slice. rewrite nth_firstn_lt by lia. rewrite nth_skipn_add. unfold vat. f_equal. lia.
  Qed.
  Lemma nth_slice0 (q : list V) k : 1 <= k -> k <= length q -> nth (k - 1) (slice q 0 k) nnan = vat q (k - 1).
  Proof. intros Hk Hl. unfold slice. cbn [skipn]. now rewrite nth_firstn_lt by lia. Qed.

  (** outcome of the whole call *)
  Lemma ls_fixed_eq nicdm vsum vexp metric k s ns (Xall X : arr2 V) : 1 <= k ->
    let v := vantage s (nrow Xall) in
    let Xt := rows_at Xall v in
    let D := cross_dists sdist metric X Xt in
    clean Xall -> sampling_fits s (nrow Xall) ns -> 0 < length v -> known_metric metric = true -> clean X -> ncol X = ncol Xall ->
    ls_fixed vsum sdist vexp part nicdm metric k s ns Xall X =
    if k <? length v then
      Ok (Arr2 (nrow X) (length v) (fun i j => M_Approx.ls_cell vsum vexp nicdm k (at2 D i j)
            (nth i (map (fun i => slice (part (rowl D i) [k - 1]) 0 k) (seq 0 (nrow X))) [])
            (nth j (map (fun j => slice (part (self_row metric Xt j) [k]) 1 (k + 1)) (seq 0 (length v))) [])))
    else Raise ValueError.
  Proof.
    intros Hk v Xt D C1 C2 Hv Hm C3 C4. unfold ls_fixed.
    assert (E1 : fit_check Xall = Ok tt) by (now apply check_array_iff).
    assert (E2 : sampling_check s (nrow Xall) ns = Ok tt).
    { assert (E := proj2 (fit_ok_iff Xall s ns) (conj C1 C2)). rewrite E1 in E. exact E. }
    rewrite E1, E2. cbn [bind]. fold v. fold Xt. rewrite ls_fit_eq by (auto; cbn; exact Hv). cbn [nrow Xt rows_at].
    destruct (Nat.ltb_spec k (length v)) as [H|H]; [|reflexivity]. cbn [bind].
    assert (E3 : trans_check X Xt = Ok tt) by (apply trans_check_iff; auto). rewrite E3. cbn [bind]. fold D.
    rewrite ls_rtest_eq by exact Hk. cbn [ncol nrow D cross_dists Xt rows_at].
    destruct (Nat.ltb_spec (k - 1) (length v)); [|lia]. reflexivity.
  Qed.
End LSF.

(** ** NICDM radii over exact numbers *)
Section NicdmRadius.
  Variables (o row : list xr).
  Hypothesis o_fin : forall x, In x o -> exists r, x = XFin r /\ (0 <= r)%R.
  Hypothesis row_perm : Permutation row (XFin 0 :: o).

  Lemma row_fin x : In x row -> exists r, x = XFin r /\ (0 <= r)%R.
  Proof using o_fin row_perm.
    intros H. eapply Permutation_in in H; [|exact row_perm]. destruct H as [<-|H]; [exists 0%R; split; [reflexivity|lra]|auto].
  Qed.
  Lemma row_isfin x : In x row -> xisfin x = true.
  Proof using o_fin row_perm. intros H. destruct (row_fin x H) as (r & -> & _). reflexivity. Qed.
  Lemma row_len : length row = S (length o).
  Proof using row_perm. now rewrite (Permutation_length row_perm). Qed.

  Lemma k_smallest_zero k so : k_smallest o k so -> k_smallest row (S k) (XFin 0 :: so).
  Proof using o_fin row_perm.
    intros (L & rest & P & H). split; [cbn; lia|]. exists rest. split.
    - rewrite row_perm. cbn. apply perm_skip. exact P.
    - intros x y [<-|Hx] Hy; [|auto]. destruct (o_fin y) as (r & -> & Hr).
      + eapply Permutation_in; [symmetry; exact P|]. apply in_app_iff. now right.
      + cbn. destruct (Rlt_dec r 0); [lra|reflexivity].
  Qed.
  (** the dropped value is what the first position of the partition holds *)
  Lemma nicdm_sum q k so : is_part row [k] q -> k <= length o -> k_smallest o k so ->
    exists x0, vat q 0 = XFin x0 /\ (0 <= x0)%R /\ In (XFin x0) (XFin 0 :: o) /\
      (forall x, In x (slice q 1 (k + 1)) -> xisfin x = true) /\ length (slice q 1 (k + 1)) = k /\
      rsum (map fin_of (slice q 1 (k + 1))) = (rsum (map fin_of so) - x0)%R.
  Proof using o_fin row_perm.
    intros Hq Hk Hso. assert (Lq : length q = S (length o)) by (rewrite (Permutation_length (proj1 Hq)); apply row_len).
    pose proof (part_one_smallest xr_cmp row q k Hq ltac:(rewrite row_len; lia)) as K1.
    pose proof (k_smallest_zero k so Hso) as K2.
    pose proof (k_smallest_sum row (S k) _ _ row_isfin K1 K2) as E.
    destruct q as [|x q]; [discriminate|].
    assert (Hx : In x row) by (eapply Permutation_in; [exact (proj1 Hq)|now left]).
    destruct (row_fin x Hx) as (x0 & -> & H0). exists x0. split; [reflexivity|]. split; [exact H0|].
    split; [eapply Permutation_in; [exact row_perm|exact Hx]|].
    assert (Es : slice (XFin x0 :: q) 1 (k + 1) = firstn k q) by (unfold slice; cbn [skipn]; f_equal; lia). rewrite Es.
    split; [|split].
    - intros y Hy. apply row_isfin. eapply Permutation_in; [exact (proj1 Hq)|]. right. rewrite <- (firstn_skipn k q). apply in_app_iff. now left.
    - rewrite firstn_length. cbn in Lq. lia.
    - cbn [firstn map rsum fold_right fin_of] in E. change (fold_right Rplus 0%R) with rsum in E. lra.
  Qed.
  (** sorting puts the self distance first, reversing the front puts a neighbour there *)
  Lemma ref_first k : vat (ref_part row [k]) 0 = XFin 0.
  Proof using o_fin row_perm.
    assert (Hq : is_part row [0] (ref_part row [k])).
    { change (ref_part row [k]) with (ref_part row [0]). apply (ref_part_ok xr_cmp). intros z [<-|[]]. rewrite row_len. lia. }
    destruct Hq as (P & H). specialize (H 0 (or_introl eq_refl)).
    assert (Lq : length (ref_part row [k]) = S (length o)) by (rewrite (Permutation_length P); apply row_len).
    assert (I0 : In (vat (ref_part row [k]) 0) row) by (eapply Permutation_in; [exact P|]; apply nth_In; lia).
    destruct (row_fin _ I0) as (x0 & E0 & H0). rewrite E0. f_equal. apply Rle_antisym; [|exact H0].
    assert (Iz : In (XFin 0) (ref_part row [k])).
    { eapply Permutation_in; [symmetry; exact P|]. eapply Permutation_in; [symmetry; exact row_perm|now left]. }
    destruct (In_nth _ _ (XNaN) Iz) as (a & Ha & Ea). destruct a as [|a].
    - unfold vat in E0. change (nnan (V:=xr)) with XNaN in E0. rewrite Ea in E0. injection E0 as <-. lra.
    - assert (S := proj2 (H (Datatypes.S a)) ltac:(lia) ltac:(rewrite row_len; lia)).
      unfold vat in S at 2. change (nnan (V:=xr)) with XNaN in S. rewrite Ea, E0 in S. cbn in S. destruct (Rle_dec x0 0); [exact r|discriminate].
  Qed.
  Lemma rev_first k : 2 <= k <= length o -> exists w, vat (rev_part row [k]) 0 = w /\ has_rank o (k - 1) w.
  Proof using o_fin row_perm.
    intros Hk. eexists. split; [reflexivity|].
    assert (Lp : length (ref_argsort row) = S (length o)).
    { rewrite (Permutation_length (proj1 (ref_argsort_ok xr_cmp row))), seq_length. apply row_len. }
    assert (E : vat (rev_part row [k]) 0 = vat (ref_part row [k - 1]) (k - 1)).
    { unfold rev_part, rev_argpart, ref_part, vat. cbv zeta.
      rewrite !(nth_indep (map _ _) nnan (nth 0 row nnan)).
      - rewrite !(map_nth (fun i => nth i row nnan)). f_equal.
        rewrite app_nth1 by (rewrite rev_length, firstn_length; lia). rewrite rev_nth by (rewrite firstn_length; lia).
        rewrite firstn_length, nth_firstn_lt by lia. f_equal. lia.
      - rewrite map_length. lia.
      - rewrite map_length, app_length, rev_length, firstn_length, skipn_length. lia. }
    rewrite E. apply (drop_zero xr_cmp row o (k - 1)); [exact row_perm| |lia|].
    - intros x Hx. destruct (o_fin x Hx) as (r & -> & Hr). cbn. destruct (Rle_dec 0 r); [reflexivity|contradiction].
    - apply (part_kth_smallest xr_cmp).
      + apply (ref_part_ok xr_cmp). intros z [<-|[]]. rewrite row_len. lia.
      + rewrite row_len. lia.
      + intros x Hx. destruct (row_fin x Hx) as (r & -> & _). reflexivity.
  Qed.
End NicdmRadius.
