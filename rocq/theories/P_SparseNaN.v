(** Proofs for C175. *)
From Coq Require Import String.
From Coq Require Import ZArith List Arith Lia Bool Permutation.
From Verif Require Import Py Num Arr Sort S_Neighbors M_IO M_GK M_SNN M_KNN M_MPEmpiric M_SparseKNN.
From Verif Require Import S_SparseKNN P_Neighbors P_KNN P_GK2 P_SparseKNN P_SparseKNN2 P_SparseKNN3 P_SparseKNN4 P_SparseKNN5 S_SparseNaN.
Import ListNotations.
Local Open Scope nat_scope.

Lemma filter_filter {A} (f g : A -> bool) l : filter g (filter f l) = filter (fun x => f x && g x) l.
Proof. induction l as [|a l IH]; [reflexivity|]. cbn [filter]. destruct (f a); cbn [filter andb]; [destruct (g a)|]; now rewrite IH. Qed.

Lemma rank_nth (f : nat -> bool) n : forall a, a < length (filter f (seq 0 n)) ->
  length (filter f (seq 0 (nth a (filter f (seq 0 n)) 0))) = a.
Proof.
  induction n as [|n IH]; intros a Ha; [cbn in Ha; lia|]. rewrite seq_S, filter_app in Ha |- *. cbn [Nat.add filter] in *.
  destruct (Nat.lt_ge_cases a (length (filter f (seq 0 n)))) as [L|L].
  - rewrite app_nth1 by exact L. now apply IH.
  - rewrite app_nth2 by exact L. rewrite app_length in Ha. destruct (f n); cbn [length] in Ha; [|lia].
    replace (a - length (filter f (seq 0 n))) with 0 by lia. cbn [nth]. lia.
Qed.

Section NaN.
  Context {V : Type} {N : Num V} {toX : V -> xr} (CL : CmpLaws V N toX).
  Variable argpart : list V -> list nat -> list nat.
  Hypothesis AP : argpart_ok argpart.

  Lemma nz_cols (S : smat V) i : sp_nz S i = nonzero_cols S i.
  Proof. unfold sp_nz, sp_cols, nonzero_cols. apply filter_filter. Qed.

  Lemma filter_perm_len {A} (f : A -> bool) l l' : Permutation l l' -> length (filter f l) = length (filter f l').
  Proof.
    induction 1 as [|x l l' _ IH|x y l|l l' l'' _ IH1 _ IH2]; cbn [filter]; [reflexivity| | |congruence].
    - destruct (f x); cbn [length]; congruence.
    - destruct (f x), (f y); reflexivity.
  Qed.
  Lemma filter_neg_len {A} (f : A -> bool) l : length (filter f l) + length (filter (fun x => negb (f x)) l) = length l.
  Proof. induction l as [|a l IH]; [reflexivity|]. cbn [filter]. destruct (f a); cbn [negb length]; lia. Qed.

  (** dropping the NaN values from a partitioned array *)
  Lemma drop_nan (v : nat -> V) (p : list nat) K k : K < length p -> k = length p - 1 - K ->
    (forall a, a < K -> sle (v (nth a p 0)) (v (nth K p 0)) = true) ->
    (forall a, K < a < length p -> sle (v (nth K p 0)) (v (nth a p 0)) = true) ->
    let q := length (filter (fun x => nisnan (v x)) p) in q <= k ->
    let P := rev (filter (fun x => negb (nisnan (v x))) p) in
    forall a b, a < k + 1 - q -> k + 1 - q <= b < length P -> nlt (v (nth a P 0)) (v (nth b P 0)) = false.
  Proof.
    intros HK Hk Hlo Hhi q Hq P a b Ha Hb.
    destruct (nth_split p 0 HK) as (p1 & p2 & Ep & L1). set (x := nth K p 0) in *.
    assert (H1 : forall y, In y p1 -> sle (v y) (v x) = true).
    { intros y Hy. apply (In_nth _ _ 0) in Hy as (c & Hc & <-). specialize (Hlo c ltac:(lia)). rewrite Ep in Hlo.
      now rewrite app_nth1 in Hlo by exact Hc. }
    assert (H2 : forall y, In y p2 -> sle (v x) (v y) = true).
    { intros y Hy. apply (In_nth _ _ 0) in Hy as (c & Hc & <-).
      assert (Lp : length p = K + 1 + length p2) by (rewrite Ep, app_length; cbn [length]; lia).
      specialize (Hhi (K + 1 + c) ltac:(lia)). rewrite Ep in Hhi.
      rewrite app_nth2 in Hhi by lia. replace (K + 1 + c - length p1) with (Datatypes.S c) in Hhi by lia. exact Hhi. }
    assert (L2 : length p2 = k) by (rewrite Hk, Ep, app_length; cbn [length]; lia).
    assert (Nx : nisnan (v x) = false).
    { destruct (nisnan (v x)) eqn:E; [|reflexivity]. exfalso.
      assert (A : forall y, In y p2 -> nisnan (v y) = true).
      { intros y Hy. specialize (H2 y Hy). unfold sle in H2. rewrite E in H2. cbn in H2. now rewrite orb_false_r in H2. }
      unfold q in Hq. rewrite Ep, filter_app in Hq. cbn [filter] in Hq. rewrite E in Hq.
      rewrite (filter_all _ p2 A), app_length in Hq. cbn [length] in Hq. lia. }
    assert (N1 : forall y, In y p1 -> nisnan (v y) = false).
    { intros y Hy. specialize (H1 y Hy). unfold sle in H1. rewrite Nx in H1. cbn in H1. now destruct (nisnan (v y)). }
    set (F2 := filter (fun x => negb (nisnan (v x))) p2).
    assert (EP : P = rev F2 ++ x :: rev p1).
    { unfold P. rewrite Ep, filter_app. cbn [filter]. rewrite Nx. cbn [negb].
      rewrite (filter_all _ p1) by (intros y Hy; now rewrite N1). rewrite rev_app_distr. cbn [rev]. now rewrite <- app_assoc. }
    assert (LF : length F2 = k - q).
    { unfold F2. pose proof (filter_neg_len (fun x => nisnan (v x)) p2) as X.
      assert (Q : q = length (filter (fun x => nisnan (v x)) p2)).
      { unfold q. rewrite Ep, filter_app. cbn [filter]. rewrite Nx.
        replace (filter (fun x => nisnan (v x)) p1) with (@nil nat); [reflexivity|].
        clear - N1. induction p1 as [|y l IH]; [reflexivity|]. cbn [filter]. rewrite N1 by now left. apply IH. intros z Hz. apply N1. now right. }
      lia. }
    assert (Va : sle (v x) (v (nth a P 0)) = true).
    { rewrite EP. destruct (Nat.eq_dec a (k - q)) as [->|Hne].
      - rewrite app_nth2 by (rewrite rev_length; lia). rewrite rev_length, LF, Nat.sub_diag. cbn [nth]. apply (sle_refl CL).
      - rewrite app_nth1 by (rewrite rev_length; lia). apply H2.
        assert (I : In (nth a (rev F2) 0) (rev F2)) by (apply nth_In; rewrite rev_length; lia).
        apply in_rev, filter_In in I. apply I. }
    assert (Vb : sle (v (nth b P 0)) (v x) = true).
    { rewrite EP in Hb |- *. rewrite app_length, rev_length in Hb. cbn [length] in Hb. rewrite rev_length in Hb.
      rewrite app_nth2 by (rewrite rev_length; lia). rewrite rev_length, LF.
      replace (b - (k - q)) with (Datatypes.S (b - (k - q) - 1)) by lia. cbn [nth]. apply H1, in_rev, nth_In. rewrite rev_length. lia. }
    apply (sle_not_lt CL). eapply (sle_trans CL); eassumption.
  Qed.

  (** what the code ranks, for arbitrary rows *)
  Lemma ranked_gen (S : smat V) i rp (ks : list nat) : 0 < length (sp_cols S i) ->
    Permutation rp (seq 0 (length (sp_cols S i))) ->
    exists L, Permutation L (filter (fun x => negb (nisnan (sval S i x))) (sp_cols S i)) /\
      sp_ranked argpart S i rp (map Z.of_nat ks) =
        (if existsb (fun x => length (nonzero_cols S i) <=? rank S i x) L then Raise IndexError else Ok (map (blamed S i) L)) /\
      forall k, In k ks \/ k = 0 \/ k = 1 -> n_nan S i <= k -> best_first S i (k + 1 - n_nan S i) L.
  Proof.
    intros Hn HP. set (n := length (sp_cols S i)) in *. unfold sp_ranked. fold n.
    set (d2 := take nnan (sp_data S i) rp).
    assert (Ld : length d2 = n). { unfold d2, take. rewrite map_length, (Permutation_length HP). apply seq_length. }
    assert (Lrp : length rp = n) by (rewrite (Permutation_length HP); apply seq_length).
    assert (Hkth : forall z, In z (sp_kth n (map Z.of_nat ks)) -> (0 <= z < Z.of_nat n)%Z).
    { intros z Hz. unfold sp_kth in Hz. apply in_map_iff in Hz. destruct Hz as (u & <- & _). lia. }
    unfold np_argpartition. replace (kth_legal (length d2) (sp_kth n (map Z.of_nat ks))) with true.
    2:{ symmetry. apply forallb_forall. intros z Hz. specialize (Hkth z Hz). rewrite Ld.
        apply andb_true_iff. split; [apply Z.leb_le|apply Z.ltb_lt]; lia. }
    cbn [bind]. set (kk := map (py_norm (length d2)) (sp_kth n (map Z.of_nat ks))).
    assert (Hkk : forall K, In K kk -> K < length d2).
    { intros K HK. apply in_map_iff in HK. destruct HK as (z & <- & Hz). specialize (Hkth z Hz).
      unfold py_norm. destruct (Z.ltb_spec z 0); lia. }
    assert (Kin : forall z : Z, In z (map (fun k => (Z.of_nat n - k - 1)%Z) (map Z.of_nat ks) ++ [Z.of_nat n - 2; Z.of_nat n - 1]%Z) ->
                  In (Z.to_nat (Z.min (Z.max z 0) (Z.of_nat n - 1))) kk).
    { intros z Hz. unfold kk, sp_kth. rewrite map_map. apply in_map_iff. exists z. split; [|exact Hz].
      unfold py_norm. destruct (Z.ltb_spec (Z.min (Z.max z 0) (Z.of_nat n - 1)) 0); [lia|reflexivity]. }
    destruct (AP d2 kk Hkk) as (Pp & Ps). set (p := argpart d2 kk) in *. rewrite Ld in Pp.
    assert (Lp : length p = n) by (rewrite (Permutation_length Pp); apply seq_length).
    assert (Hv : forall a, a < n -> nth a d2 nnan = sval S i (nth (nth a rp 0) (sp_cols S i) 0) /\ nth a rp 0 < n).
    { intros a Ha.
      assert (Hr : nth a rp 0 < n).
      { assert (In (nth a rp 0) rp) as Hin by (apply nth_In; lia). apply (Permutation_in _ HP) in Hin. apply in_seq in Hin. lia. }
      split; [|exact Hr].
      unfold d2, take. rewrite nth_indep with (d' := (fun k => nth k (sp_data S i) nnan) 0) by (rewrite map_length; lia).
      rewrite (map_nth (fun k => nth k (sp_data S i) nnan)). unfold sp_data.
      rewrite nth_indep with (d' := sval S i 0) by (rewrite map_length; exact Hr). apply map_nth. }
    set (col := fun a => nth (nth a rp 0) (sp_cols S i) 0).
    set (P := rev (filter (fun a => negb (nisnan (nth a d2 nnan))) p)).
    assert (HPn : forall a, In a P -> a < n).
    { intros a Ha. apply in_rev, filter_In in Ha as (Ha & _). apply (Permutation_in _ Pp), in_seq in Ha. lia. }
    assert (Pcols : Permutation (map col p) (sp_cols S i)).
    { unfold col. rewrite <- (map_map (fun a => nth a rp 0) (fun a => nth a (sp_cols S i) 0)).
      apply map_nth_perm. fold n. etransitivity; [apply map_nth_perm|exact HP]. rewrite Lrp. exact Pp. }
    assert (Fcol : forall (f : V -> bool) l, (forall a, In a l -> a < n) ->
              map col (filter (fun a => f (nth a d2 nnan)) l) = filter (fun x => f (sval S i x)) (map col l)).
    { intros f l. induction l as [|a l IH]; intros Hl; [reflexivity|]. cbn [map filter].
      destruct (Hv a) as (-> & _); [apply Hl; now left|]. fold (col a). rewrite <- IH by (intros b Hb; apply Hl; now right).
      destruct (f (sval S i (col a))); reflexivity. }
    assert (Pn : forall a, In a p -> a < n) by (intros a Ha; apply (Permutation_in _ Pp), in_seq in Ha; lia).
    exists (map col P). split; [|split].
    - unfold P. rewrite map_rev, <- Permutation_rev. rewrite (Fcol (fun y => negb (nisnan y)) p Pn). clear - Pcols.
      induction Pcols as [|x l l' _ IH|x y l|l l' l'' _ IH1 _ IH2]; cbn [filter]; [constructor| | |etransitivity; eassumption].
      + destruct (negb _); [now constructor|exact IH].
      + destruct (negb (nisnan (sval S i x))), (negb (nisnan (sval S i y))); try apply Permutation_refl. constructor.
    - assert (Rk : forall a, In a P -> rank S i (col a) = nth a rp 0).
      { intros a Ha. unfold rank, col. apply (rank_nth (is_stored S i) (scol S)). apply (Hv a). now apply HPn. }
      rewrite nz_cols.
      assert (Ex : existsb (fun x => length (nonzero_cols S i) <=? x) (take 0 rp P) =
                   existsb (fun x => length (nonzero_cols S i) <=? rank S i x) (map col P)).
      { unfold take. clear - Rk. induction P as [|a l IH]; [reflexivity|]. cbn [map existsb]. rewrite Rk by now left. f_equal.
        apply IH. intros b Hb. apply Rk. now right. }
      rewrite Ex. unfold guard. destruct (existsb _ (map col P)); [reflexivity|]. cbn [bind]. f_equal.
      unfold take. rewrite !map_map. apply map_ext_in. intros a Ha. unfold blamed. now rewrite Rk.
    - intros k Hk Hq a b Ha Hb. rewrite map_length in Hb.
      destruct (Nat.lt_ge_cases k n) as [Hkn|Hkn].
      + assert (HK : In (n - 1 - k) kk).
        { destruct Hk as [Hk|[Hk|Hk]].
          - specialize (Kin (Z.of_nat n - Z.of_nat k - 1)%Z). replace (Z.to_nat _) with (n - 1 - k) in Kin by lia. apply Kin.
            apply in_app_iff. left. apply in_map_iff. exists (Z.of_nat k). split; [lia|]. now apply in_map.
          - specialize (Kin (Z.of_nat n - 1)%Z). replace (Z.to_nat _) with (n - 1 - k) in Kin by lia. apply Kin.
            apply in_app_iff. right. right. now left.
          - specialize (Kin (Z.of_nat n - 2)%Z). replace (Z.to_nat _) with (n - 1 - k) in Kin by lia. apply Kin.
            apply in_app_iff. right. now left. }
        assert (Q : length (filter (fun x => nisnan (nth x d2 nnan)) p) = n_nan S i).
        { rewrite <- (map_length col). rewrite (Fcol nisnan p Pn). rewrite (filter_perm_len _ _ _ Pcols).
          unfold sp_cols. now rewrite filter_filter. }
        pose proof (drop_nan (fun x => nth x d2 nnan) p (n - 1 - k) k ltac:(lia) ltac:(lia)) as DN.
        cbv beta zeta in DN. fold P in DN. rewrite Q in DN.
        assert (Ia : nth a P 0 < n) by (apply HPn, nth_In; lia).
        assert (Ib : nth b P 0 < n) by (apply HPn, nth_In; lia).
        rewrite (nth_indep _ 0 (col 0)) by (rewrite map_length; lia). rewrite (map_nth col).
        rewrite (nth_indep (map col P) 0 (col 0)) by (rewrite map_length; lia). rewrite (map_nth col). unfold col.
        rewrite <- (proj1 (Hv _ Ia)), <- (proj1 (Hv _ Ib)). apply DN; try assumption.
        * intros c Hc. apply (Ps (n - 1 - k) HK). exact Hc.
        * intros c Hc. apply (Ps (n - 1 - k) HK); [apply Hc|]. rewrite Ld. lia.
      + exfalso.
        assert (LP : length P + n_nan S i <= n).
        { unfold P. rewrite rev_length. pose proof (filter_neg_len (fun x => nisnan (nth x d2 nnan)) p) as X.
          assert (Q : length (filter (fun x => nisnan (nth x d2 nnan)) p) = n_nan S i).
          { rewrite <- (map_length col). rewrite (Fcol nisnan p Pn). rewrite (filter_perm_len _ _ _ Pcols).
            unfold sp_cols. now rewrite filter_filter. }
          rewrite Q in X. lia. }
        lia.
  Qed.
End NaN.

Section Run.
  Context {V : Type} {N : Num V} {toX : V -> xr} (CL : CmpLaws V N toX).
  Variable argpart : list V -> list nat -> list nat.
  Hypothesis AP : argpart_ok argpart.
  Variable rp : nat -> list nat -> list nat.
  Hypothesis RP : forall i l, Permutation (rp i l) l.
  Variable sh : nat -> nat -> list nat -> list nat.
  Hypothesis SH : forall i j l, Permutation (sh i j l) l.
  Variable vsum : list V -> V.

  Lemma in_known (S : smat V) i L : Permutation L (filter (fun x => negb (nisnan (sval S i x))) (sp_cols S i)) ->
    forall x, In x L <-> known S i x.
  Proof.
    intros HP x. split.
    - intros H. apply (Permutation_in _ HP), filter_In in H as (H & E). split; [now apply stored_linked|]. now apply negb_true_iff.
    - intros (H & E). apply (Permutation_in _ (Permutation_sym HP)), filter_In. split; [now apply stored_linked|]. now rewrite E.
  Qed.

  Lemma worker_gen (S : smat V) (lab : list Z) yp i : scol S = length lab -> i < length lab -> relevant lab i <> 0 ->
    (exists x, linked S i x) ->
    exists L, NoDup L /\ (forall x, In x L <-> known S i x) /\
      (forall k, k = relevant lab i \/ k = 0 \/ k = 1 -> n_nan S i <= k -> best_first S i (k + 1 - n_nan S i) L) /\
      (~ readable S i -> rprec_worker argpart rp sh S (enc lab) (erel lab) yp (class_index (ecl lab) int_min) i = Raise IndexError) /\
      (readable S i -> exists r, rprec_worker argpart rp sh S (enc lab) (erel lab) yp (class_index (ecl lab) int_min) i = Ok r /\
         fst r = item_val lab i (map (blamed S i) (firstn (relevant lab i) (tl L)))).
  Proof.
    intros HC Hi Hr (x0 & Hx0).
    assert (Hn : 0 < length (sp_cols S i)). { apply stored_linked in Hx0. destruct (sp_cols S i); [contradiction|cbn; lia]. }
    destruct (ranked_gen CL argpart AP S i (rp i (seq 0 (length (sp_cols S i)))) [relevant lab i] Hn (RP _ _)) as (L & PL & Er & Hb).
    pose proof (in_known S i L PL) as IL. exists L.
    split. { apply (Permutation_NoDup (Permutation_sym PL)), NoDup_filter, cols_NoDup. }
    split; [exact IL|]. split. { intros k Hk. apply Hb. destruct Hk as [->|Hk]; [left; now left|now right]. }
    assert (Rd : existsb (fun x => length (nonzero_cols S i) <=? rank S i x) L = false <-> readable S i).
    { split.
      - intros E x Hx. destruct (Nat.lt_ge_cases (rank S i x) (length (nonzero_cols S i))) as [|C]; [assumption|]. exfalso.
        apply not_true_iff_false in E. apply E, existsb_exists. exists x. split; [now apply IL|now apply Nat.leb_le].
      - intros H. apply not_true_iff_false. intros E. apply existsb_exists in E as (x & Hx & C). apply IL, H in Hx. apply Nat.leb_le in C. lia. }
    change (map Z.of_nat [relevant lab i]) with [Z.of_nat (relevant lab i)] in Er.
    split.
    - intros H. apply worker_fail; [assumption|assumption|]. rewrite Er. destruct (existsb _ L) eqn:E; [reflexivity|]. exfalso. now apply H, Rd.
    - intros H. pose proof (proj2 Rd H) as E. rewrite E in Er. clear Rd. unfold rprec_worker. rewrite (rel_relevant lab i Hi).
      destruct (Z.eqb_spec (Z.of_nat (relevant lab i)) 0) as [C|_]; [lia|]. rewrite Er. cbn [bind].
      set (R := relevant lab i) in *.
      assert (Ex : prefix (tl (map (blamed S i) L)) (Z.of_nat R) = map (blamed S i) (firstn R (tl L))).
      { unfold prefix. destruct (Z.ltb_spec (Z.of_nat R) 0); [lia|]. rewrite Nat2Z.id, <- firstn_map. f_equal. now destruct L. }
      rewrite Ex. set (nn := map (blamed S i) (firstn R (tl L))).
      set (nn' := match filter (fun x => nisfin (sval S i x)) nn with [] => sh i 0 nn | _ => nn end).
      assert (Pn : Permutation nn' nn) by (unfold nn'; destruct (filter _ nn); [apply SH|reflexivity]).
      assert (Hlt : forall x, In x nn' -> x < length lab).
      { intros x Hx. apply (Permutation_in _ Pn) in Hx. apply in_map_iff in Hx as (y & <- & Hy).
        assert (Hk : known S i y). { apply IL. assert (In y (tl L)) by (rewrite <- (firstn_skipn R (tl L)); apply in_or_app; now left). destruct L; [contradiction|now right]. }
        apply H in Hk. assert (I : In (blamed S i y) (nonzero_cols S i)) by (now apply nth_In).
        unfold nonzero_cols in I. apply filter_In in I as (I & _). apply in_seq in I. lia. }
      rewrite (hits_enc lab i nn' Hi Hlt), (hits_perm lab i _ _ Pn). unfold item_val. fold R.
      destruct (hits lab i nn =? 0); eexists; (split; [reflexivity|]); reflexivity.
  Qed.

  Lemma rprec_ok (S : smat V) lab yp rs : srow S = length lab -> scol S = length lab -> mates lab ->
    mapM (rprec_worker argpart rp sh S (enc lab) (erel lab) yp (class_index (ecl lab) int_min)) (seq 0 (length lab)) = Ok rs ->
    exists out, r_precision argpart rp sh vsum false S lab "similarity" yp = Ok out /\ rp_item out = map fst rs.
  Proof.
    intros HR HC (i0 & Hi0 & Hr0) Hrs. set (n := length lab) in *.
    unfold r_precision. cbn [check_distance_matrix_shape check_is_nD_array].
    unfold check_distance_matrix_shape, check_distance_matrix_shape_fits_labels, check_is_nD_array, guard, dim0, dim1, size_of, shape_of.
    cbn [length nth fold_right]. rewrite HR, HC. fold n. rewrite Nat.mul_1_r, !Nat.eqb_refl.
    cbn [negb Nat.eqb bind].
    change (check_valid_metric_parameter "similarity") with (Ok tt). change (is_sim "similarity") with true. cbn [negb orb bind].
    change (unique_labels (lab ++ [int_min])) with (ecl lab). change (map (class_index (ecl lab)) lab) with (enc lab).
    change (map (fun c => (Z.of_nat c - 1)%Z) (bincount (enc lab) 0)) with (erel lab).
    rewrite Hrs. cbn [bind].
    assert (Ew : map (fun c => nth c (erel lab) 0%Z) (enc lab) = map (fun i => Z.of_nat (relevant lab i)) (seq 0 n)).
    { rewrite <- (map_nth_seq (fun c => nth c (erel lab) 0%Z) (enc lab) 0), enc_length. apply map_ext_in.
      intros i Hi. apply in_seq in Hi. apply rel_relevant. fold n. lia. }
    rewrite Ew, zsum_map.
    assert (Hpos : sum_nat (map (relevant lab) (seq 0 n)) <> 0).
    { pose proof (sum_nat_ge (relevant lab) (seq 0 n) i0 ltac:(apply in_seq; lia)). lia. }
    destruct (Z.eqb_spec (Z.of_nat (sum_nat (map (relevant lab) (seq 0 n)))) 0) as [E|_]; [lia|].
    cbn [bind]. eexists. split; reflexivity.
  Qed.
End Run.
