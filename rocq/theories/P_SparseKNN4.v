(** Failing rows, label counts. *)
From Coq Require Import String.
From Coq Require Import ZArith List Arith Lia Bool Permutation.
From Verif Require Import Py Num Arr Sort S_Neighbors M_IO M_GK M_SNN M_KNN M_MPEmpiric M_SparseKNN.
From Verif Require Import S_SparseKNN P_Neighbors P_KNN P_GK2 P_SparseKNN P_SparseKNN2 P_SparseKNN3.
Import ListNotations.
Local Open Scope nat_scope.

Lemma relevant_pos lab i : i < length lab -> (relevant lab i <> 0 <->
  exists j, j < length lab /\ j <> i /\ nth j lab 0%Z = nth i lab 0%Z).
Proof.
  intros Hi. unfold relevant. split.
  - intros H. destruct (filter _ (seq 0 (length lab))) as [|j l] eqn:E; [simpl in H; lia|].
    assert (Hj : In j (j :: l)) by now left. rewrite <- E in Hj. apply filter_In in Hj. destruct Hj as (Hs & Hb).
    apply in_seq in Hs. apply andb_true_iff in Hb. destruct Hb as (H1 & H2). exists j. split; [lia|]. split.
    + intros ->. now rewrite Nat.eqb_refl in H1.
    + now apply Z.eqb_eq.
  - intros (j & Hj & Hne & E) H.
    assert (In j (filter (fun x => negb (x =? i) && (nth x lab 0 =? nth i lab 0)%Z) (seq 0 (length lab)))).
    { apply filter_In. split; [apply in_seq; lia|]. apply andb_true_iff. split.
      - apply negb_true_iff, Nat.eqb_neq. exact Hne.
      - now apply Z.eqb_eq. }
    destruct (filter _ _); [contradiction|discriminate].
Qed.

Lemma hits_le lab i nn : hits lab i nn <= length nn.
Proof. unfold hits. induction nn as [|x nn IH]; simpl; [lia|]. destruct (_ =? _)%Z; simpl; lia. Qed.

Lemma mapM_first_raise {A B} (f : A -> result B) l e a : In a l -> f a = Raise e ->
  (forall b, In b l -> is_ok (f b) = false -> f b = Raise e) -> mapM f l = Raise e.
Proof.
  induction l as [|b l IH]; simpl; [contradiction|]. intros Ha E H.
  destruct (f b) as [r|e'] eqn:Eb; cbn [bind].
  - destruct Ha as [->|Ha]; [congruence|]. rewrite IH; auto.
  - specialize (H b (or_introl eq_refl)). rewrite Eb in H. specialize (H eq_refl). congruence.
Qed.

Section Bad.
  Context {V : Type} {N : Num V} {toX : V -> xr} (CL : CmpLaws V N toX).
  Variable argpart : list V -> list nat -> list nat.
  Hypothesis AP : argpart_ok argpart.

  Lemma kth_bad ks : kth_legal 0 (sp_kth 0 ks) = false.
  Proof.
    unfold sp_kth. rewrite map_app. cbn [map]. unfold kth_legal. rewrite forallb_app.
    change (forallb _ [_; _]) with false. apply andb_false_r.
  Qed.

  Lemma ranked_empty (S : smat V) i rp ks : sp_cols S i = [] -> rp = [] ->
    sp_ranked argpart S i rp ks = Raise ValueError.
  Proof.
    intros E ->. unfold sp_ranked. rewrite E. unfold np_argpartition. cbn [take map length]. now rewrite kth_bad.
  Qed.

  Lemma filter_lt {A} (f : A -> bool) l x : In x l -> f x = false -> length (filter f l) < length l.
  Proof.
    induction l as [|a l IH]; simpl; [contradiction|].
    assert (L : length (filter f l) <= length l).
    { clear. induction l as [|b l IH]; simpl; [lia|]. destruct (f b); simpl; lia. }
    intros [->|H] Hf.
    - rewrite Hf. lia.
    - specialize (IH H Hf). destruct (f a); simpl; lia.
  Qed.

  (** an explicitly stored zero makes the row unusable *)
  Lemma ranked_zero (S : smat V) i rp ks x : (forall y, linked S i y -> nisnan (sval S i y) = false) ->
    linked S i x -> nonzero (sval S i x) = false ->
    Permutation rp (seq 0 (length (sp_cols S i))) ->
    sp_ranked argpart S i rp ks = Raise IndexError.
  Proof.
    intros HC Hx Hz HP. set (n := length (sp_cols S i)) in *. unfold sp_ranked. fold n.
    assert (Hin : In x (sp_cols S i)) by now apply stored_linked.
    assert (Hn : 0 < n). { unfold n. destruct (sp_cols S i); [contradiction|simpl; lia]. }
    set (d2 := take nnan (sp_data S i) rp).
    assert (Lrp : length rp = n) by (rewrite (Permutation_length HP); apply seq_length).
    assert (Ld : length d2 = n). { unfold d2, take. now rewrite map_length. }
    assert (Hkth : forall z, In z (sp_kth n ks) -> (0 <= z < Z.of_nat n)%Z).
    { intros z Hz'. unfold sp_kth in Hz'. apply in_map_iff in Hz'. destruct Hz' as (u & <- & _). lia. }
    unfold np_argpartition. replace (kth_legal (length d2) (sp_kth n ks)) with true.
    2:{ symmetry. apply forallb_forall. intros z Hz'. specialize (Hkth z Hz'). rewrite Ld.
        apply andb_true_iff. split; [apply Z.leb_le|apply Z.ltb_lt]; lia. }
    cbn [bind]. set (kk := map (py_norm (length d2)) (sp_kth n ks)).
    assert (Hkk : forall K, In K kk -> K < length d2).
    { intros K HK. apply in_map_iff in HK. destruct HK as (z & <- & Hz'). specialize (Hkth z Hz').
      unfold py_norm. destruct (Z.ltb_spec z 0); lia. }
    destruct (AP d2 kk Hkk) as (Pp & _). set (p := argpart d2 kk) in *. rewrite Ld in Pp.
    assert (Hv : forall a, a < n -> nisnan (nth a d2 nnan) = false).
    { intros a Ha.
      assert (Hr : nth a rp 0 < n).
      { assert (In (nth a rp 0) rp) as Hi by (apply nth_In; lia). apply (Permutation_in _ HP) in Hi. apply in_seq in Hi. lia. }
      unfold d2, take. rewrite nth_indep with (d' := (fun k => nth k (sp_data S i) nnan) 0) by (rewrite map_length; lia).
      rewrite (map_nth (fun k => nth k (sp_data S i) nnan)). unfold sp_data.
      rewrite nth_indep with (d' := sval S i 0) by (rewrite map_length; exact Hr). rewrite map_nth.
      apply HC, stored_linked, nth_In. exact Hr. }
    rewrite (filter_all _ p).
    2:{ intros a Ha. apply (Permutation_in _ Pp) in Ha. apply in_seq in Ha. rewrite Hv by lia. reflexivity. }
    replace (existsb (fun x0 => length (sp_nz S i) <=? x0) (take 0 rp (rev p))) with true; [reflexivity|].
    symmetry. apply existsb_exists. exists (n - 1). split.
    - assert (P2 : Permutation (take 0 rp (rev p)) (seq 0 n)).
      { unfold take. etransitivity; [apply map_nth_perm|exact HP]. rewrite Lrp, <- Pp. symmetry. apply Permutation_rev. }
      apply (Permutation_in _ (Permutation_sym P2)). apply in_seq. lia.
    - apply Nat.leb_le. unfold sp_nz.
      pose proof (filter_lt (fun j => nonzero (sval S i j)) (sp_cols S i) x Hin Hz). fold n in H. lia.
  Qed.
End Bad.
