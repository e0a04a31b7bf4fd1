(** Lemmas about sparse neighbour search. *)
From Coq Require Import String.
From Coq Require Import ZArith List Arith Lia Bool Permutation.
From Verif Require Import Py Num Arr Sort S_Neighbors M_IO M_GK M_SNN M_KNN M_MPEmpiric M_SparseKNN.
From Verif Require Import S_SparseKNN P_Neighbors P_KNN.
Import ListNotations.

Lemma stored_linked {V} {N : Num V} (S : smat V) i x : In x (sp_cols S i) <-> linked S i x.
Proof.
  unfold sp_cols, linked, is_stored. rewrite filter_In, in_seq. destruct (stored S i x) as [v|].
  - split; intros (H & _); (split; [lia|eauto]).
  - split; [intros (_ & H); discriminate|intros (_ & v & H); discriminate].
Qed.
Lemma cols_NoDup {V} (S : smat V) i : NoDup (sp_cols S i).
Proof. apply NoDup_filter, seq_NoDup. Qed.

Lemma filter_all {A} (f : A -> bool) l : (forall x, In x l -> f x = true) -> filter f l = l.
Proof.
  induction l as [|a l IH]; intros H; simpl; [reflexivity|]. rewrite (H a (or_introl eq_refl)).
  f_equal. apply IH. intros x Hx. apply H. now right.
Qed.

Lemma nz_clean {V} {N : Num V} (S : smat V) i : clean_row S i -> sp_nz S i = sp_cols S i.
Proof. intros H. apply filter_all. intros x Hx. now apply H, stored_linked. Qed.

Lemma map_nth_perm {A} (l : list A) d p : Permutation p (seq 0 (length l)) ->
  Permutation (map (fun k => nth k l d) p) l.
Proof.
  intros H. rewrite (Permutation_map _ H). rewrite (map_nth_seq (fun x => x)). now rewrite map_id.
Qed.

Section Ranked.
  Context {V : Type} {N : Num V} {toX : V -> xr} (CL : CmpLaws V N toX).
  Variable argpart : list V -> list nat -> list nat.
  Hypothesis AP : argpart_ok argpart.

  Lemma ranked_spec (S : smat V) i rp (ks : list nat) : clean_row S i -> 0 < length (sp_cols S i) ->
    Permutation rp (seq 0 (length (sp_cols S i))) ->
    exists w t, sp_ranked argpart S i rp (map Z.of_nat ks) = Ok (w :: t) /\
      Permutation (w :: t) (sp_cols S i) /\
      (forall x, linked S i x -> nlt (sval S i w) (sval S i x) = false) /\
      (forall k, In k ks ->
         top_list (sval S i) (fun x => linked S i x /\ x <> w) (Nat.min k (length (sp_cols S i) - 1)) (firstn k t)) /\
      (forall h x, nth_error t 0 = Some h -> linked S i x -> x <> w -> nlt (sval S i h) (sval S i x) = false).
  Proof.
    intros HC Hn HP. set (n := length (sp_cols S i)) in *. unfold sp_ranked. fold n.
    set (d2 := take nnan (sp_data S i) rp).
    assert (Ld : length d2 = n). { unfold d2, take. rewrite map_length, (Permutation_length HP). apply seq_length. }
    assert (Lrp : length rp = n) by (rewrite (Permutation_length HP); apply seq_length).
    assert (Hkth : forall z, In z (sp_kth n (map Z.of_nat ks)) -> (0 <= z < Z.of_nat n)%Z).
    { intros z Hz. unfold sp_kth in Hz. apply in_map_iff in Hz. destruct Hz as (u & <- & _). lia. }
    unfold np_argpartition. replace (kth_legal (length d2) (sp_kth n (map Z.of_nat ks))) with true.
    2:{ symmetry. apply forallb_forall. intros z Hz. specialize (Hkth z Hz). rewrite Ld.
        apply andb_true_iff. split; [apply Z.leb_le|apply Z.ltb_lt]; lia. }
    cbn [bind]. set (kk := map (py_norm (length d2)) (sp_kth n (map Z.of_nat ks))).
    assert (Hkk : forall K, In K kk -> K < length d2).
    { intros K HK. apply in_map_iff in HK. destruct HK as (z & <- & Hz). specialize (Hkth z Hz).
      unfold py_norm. destruct (Z.ltb_spec z 0); lia. }
    assert (Kin : forall z : Z, In z (map (fun k => (Z.of_nat n - k - 1)%Z) (map Z.of_nat ks) ++ [Z.of_nat n - 2; Z.of_nat n - 1]%Z) ->
                  In (Z.to_nat (Z.min (Z.max z 0) (Z.of_nat n - 1))) kk).
    { intros z Hz. unfold kk, sp_kth. rewrite map_map. apply in_map_iff. exists z. split; [|exact Hz].
      unfold py_norm. destruct (Z.ltb_spec (Z.min (Z.max z 0) (Z.of_nat n - 1)) 0); [lia|reflexivity]. }
    destruct (AP d2 kk Hkk) as (Pp & Ps). set (p := argpart d2 kk) in *. rewrite Ld in Pp.
    assert (Hv : forall a, a < n -> nisnan (nth a d2 nnan) = false /\ vat d2 a = sval S i (nth (nth a rp 0) (sp_cols S i) 0) /\ nth a rp 0 < n).
    { intros a Ha.
      assert (Hr : nth a rp 0 < n).
      { assert (In (nth a rp 0) rp) as Hin by (apply nth_In; lia). apply (Permutation_in _ HP) in Hin. apply in_seq in Hin. lia. }
      assert (E : nth a d2 nnan = sval S i (nth (nth a rp 0) (sp_cols S i) 0)).
      { unfold d2, take. rewrite nth_indep with (d' := (fun k => nth k (sp_data S i) nnan) 0) by (rewrite map_length; lia).
        rewrite (map_nth (fun k => nth k (sp_data S i) nnan)). unfold sp_data.
        rewrite nth_indep with (d' := sval S i 0) by (rewrite map_length; exact Hr). apply map_nth. }
      split; [|split; [exact E|exact Hr]]. rewrite E. apply HC, stored_linked, nth_In. exact Hr. }
    rewrite (filter_all _ p).
    2:{ intros a Ha. apply (Permutation_in _ Pp) in Ha. apply in_seq in Ha. destruct (Hv a) as (-> & _); [lia|reflexivity]. }
    rewrite (nz_clean S i HC).
    assert (Hpos : forall x, In x (take 0 rp (rev p)) -> x < n).
    { intros x Hx. unfold take in Hx. apply in_map_iff in Hx. destruct Hx as (a & <- & Ha). apply in_rev in Ha.
      apply (Permutation_in _ Pp) in Ha. apply in_seq in Ha. destruct (Hv a) as (_ & _ & H); [lia|exact H]. }
    replace (existsb (fun x => length (sp_cols S i) <=? x) (take 0 rp (rev p))) with false.
    2:{ symmetry. apply not_true_iff_false. intros H. apply existsb_exists in H. destruct H as (x & Hx & E).
        apply Hpos in Hx. apply Nat.leb_le in E. unfold n in Hx. lia. }
    cbn [guard bind].
    set (L := take 0 (sp_cols S i) (take 0 rp (rev p))).
    assert (LL : length L = n). { unfold L, take. rewrite !map_length, rev_length, (Permutation_length Pp). apply seq_length. }
    assert (PL : Permutation L (sp_cols S i)).
    { unfold L. unfold take at 1. apply map_nth_perm. unfold take. fold n.
      etransitivity; [apply map_nth_perm|exact HP]. rewrite Lrp, <- Pp. symmetry. apply Permutation_rev. }
    assert (NL : forall a, a < n -> sval S i (nth a L 0) = vat d2 (nth (n - 1 - a) p 0)).
    { intros a Ha.
      assert (Lp : length p = n) by (rewrite (Permutation_length Pp); apply seq_length).
      assert (Ha' : nth (n - 1 - a) p 0 < n).
      { assert (In (nth (n - 1 - a) p 0) p) as Hin by (apply nth_In; lia). apply (Permutation_in _ Pp) in Hin. apply in_seq in Hin. lia. }
      destruct (Hv _ Ha') as (_ & -> & _). f_equal. unfold L, take. rewrite map_map.
      rewrite nth_indep with (d' := (fun k => nth (nth k rp 0) (sp_cols S i) 0) 0)
        by (rewrite map_length, rev_length; lia).
      rewrite (map_nth (fun k => nth (nth k rp 0) (sp_cols S i) 0)). do 2 f_equal.
      rewrite rev_nth by lia. f_equal. lia. }
    (* order facts: index A of L is a partition point *)
    assert (F : forall K, In K kk -> let A := n - 1 - K in
              (forall b, A < b < n -> sle (sval S i (nth b L 0)) (sval S i (nth A L 0)) = true) /\
              (forall a, a < A -> sle (sval S i (nth A L 0)) (sval S i (nth a L 0)) = true)).
    { intros K HK A. pose proof (Hkk K HK) as HKn. rewrite Ld in HKn. split.
      - intros b Hb. rewrite !NL by (unfold A in *; lia). unfold A. replace (n - 1 - (n - 1 - K)) with K by lia.
        apply (Ps K HK). unfold A in Hb. lia.
      - intros a Ha. rewrite !NL by (unfold A in *; lia). unfold A. replace (n - 1 - (n - 1 - K)) with K by lia.
        apply (Ps K HK); [unfold A in Ha; lia|rewrite Ld; lia]. }
    assert (F0 : forall b, 0 < b < n -> sle (sval S i (nth b L 0)) (sval S i (nth 0 L 0)) = true).
    { intros b Hb. assert (HK : In (n - 1) kk).
      { specialize (Kin (Z.of_nat n - 1)%Z). replace (Z.to_nat _) with (n - 1) in Kin by lia. apply Kin.
        apply in_app_iff. right. right. now left. }
      destruct (F _ HK) as (F1 & _). replace (n - 1 - (n - 1)) with 0 in F1 by lia. now apply F1. }
    assert (F1 : forall b, 1 < b < n -> sle (sval S i (nth b L 0)) (sval S i (nth 1 L 0)) = true).
    { intros b Hb. assert (HK : In (n - 2) kk).
      { specialize (Kin (Z.of_nat n - 2)%Z). replace (Z.to_nat _) with (n - 2) in Kin by lia. apply Kin.
        apply in_app_iff. right. now left. }
      destruct (F _ HK) as (F1 & _). replace (n - 1 - (n - 2)) with 1 in F1 by lia. apply F1. lia. }
    assert (Fk : forall k, In k ks -> k < n ->
       (forall b, k < b < n -> sle (sval S i (nth b L 0)) (sval S i (nth k L 0)) = true) /\
       (forall a, a < k -> sle (sval S i (nth k L 0)) (sval S i (nth a L 0)) = true)).
    { intros k Hk Hkn. assert (HK : In (n - 1 - k) kk).
      { specialize (Kin (Z.of_nat n - Z.of_nat k - 1)%Z). replace (Z.to_nat _) with (n - 1 - k) in Kin by lia. apply Kin.
        apply in_app_iff. left. apply in_map_iff. exists (Z.of_nat k). split; [lia|]. now apply in_map. }
      pose proof (F _ HK) as F2. cbv zeta in F2. replace (n - 1 - (n - 1 - k)) with k in F2 by lia. exact F2. }
    destruct L as [|w t] eqn:EL; [simpl in LL; lia|]. exists w, t. split; [reflexivity|]. split; [exact PL|].
    assert (NDL : NoDup (w :: t)) by (apply (Permutation_NoDup (Permutation_sym PL)), cols_NoDup).
    assert (Inx : forall x, linked S i x -> exists c, c < n /\ nth c (w :: t) 0 = x).
    { intros x Hx. apply stored_linked, (Permutation_in _ (Permutation_sym PL)) in Hx.
      apply (In_nth _ _ 0) in Hx. destruct Hx as (c & Hc & E). exists c. rewrite LL in Hc. auto. }
    assert (Lt : length t = n - 1) by (simpl in LL; lia).
    assert (Int : forall x, linked S i x -> x <> w -> exists c, c < n - 1 /\ nth c t 0 = x).
    { intros x Hx Hw. destruct (Inx x Hx) as (c & Hc & E). destruct c as [|c]; [simpl in E; congruence|].
      exists c. split; [lia|exact E]. }
    assert (Head : forall h x, nth_error t 0 = Some h -> linked S i x -> x <> w -> nlt (sval S i h) (sval S i x) = false).
    { intros h x Hh Hx Hw. destruct (Int x Hx Hw) as (c & Hc & <-).
      assert (E : nth 1 (w :: t) 0 = h) by (simpl; now apply nth_error_nth).
      destruct c as [|c].
      - apply (sle_not_lt CL). change (nth 0 t 0) with (nth 1 (w :: t) 0). rewrite E. apply (sle_refl CL).
      - apply (sle_not_lt CL). rewrite <- E. change (nth (Datatypes.S c) t 0) with (nth (Datatypes.S (Datatypes.S c)) (w :: t) 0).
        apply F1. lia. }
    split; [|split; [|exact Head]].
    - intros x Hx. destruct (Inx x Hx) as (c & Hc & <-). apply (sle_not_lt CL).
      destruct c as [|c]; [apply (sle_refl CL)|]. apply F0. lia.
    - intros k Hk. constructor.
      + rewrite firstn_length. lia.
      + apply NoDup_firstn. now inversion NDL.
      + intros x Hx. assert (Ht : In x t). { rewrite <- (firstn_skipn k t). apply in_app_iff. now left. }
        split; [apply stored_linked, (Permutation_in _ PL); now right|]. intros ->. inversion NDL. contradiction.
      + intros x y (Hx & Hw) Hnx Hy. destruct (Int x Hx Hw) as (c & Hc & <-).
        apply In_nth_firstn in Hy. destruct Hy as (a & Ha & Hal & <-).
        assert (k <= c).
        { destruct (le_lt_dec k c); [assumption|]. exfalso. apply Hnx.
          rewrite <- (nth_firstn_lt k t c 0) by assumption. apply nth_In. rewrite firstn_length. lia. }
        apply (sle_not_lt CL).
        destruct (Fk k Hk ltac:(lia)) as (G1 & G2).
        assert (H1 : sle (sval S i (nth c t 0)) (sval S i (nth k (w :: t) 0)) = true).
        { change (nth c t 0) with (nth (Datatypes.S c) (w :: t) 0). apply G1. lia. }
        assert (H2 : sle (sval S i (nth k (w :: t) 0)) (sval S i (nth a t 0)) = true).
        { change (nth a t 0) with (nth (Datatypes.S a) (w :: t) 0).
          destruct (Nat.eq_dec (Datatypes.S a) k) as [<-|]; [apply (sle_refl CL)|]. apply G2. lia. }
        eapply (sle_trans CL); eauto.
      + intros h x Hh (Hx & Hw). apply (Head h x); auto.
        destruct k; [discriminate|]. destruct t; [discriminate|exact Hh].
  Qed.
End Ranked.
