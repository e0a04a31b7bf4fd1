(** Contracts of numpy's sorting primitives, their consequences, and a
    reference implementation that meets them. *)
From Coq Require Import ZArith List Arith Lia Bool Permutation Sorting.
From Verif Require Import Py Num Arr.
Import ListNotations.

Section Contracts.
  Context {V : Type} {N : Num V}.

  (** value of a 1-D array at position [i] (only used for [i] in range) *)
  Definition vat (l : list V) (i : nat) : V := nth i l nnan.

  (** np.argsort: a permutation of the positions along which the values are
      in numpy sort order (NaN last); order of equal values unspecified. *)
  Definition is_argsort (l : list V) (p : list nat) : Prop :=
    Permutation p (seq 0 (length l)) /\
    forall a b, a < b -> b < length l ->
      sle (vat l (nth a p 0)) (vat l (nth b p 0)) = true.

  (** np.argpartition(l, kth=ks): a permutation of the positions such that the
      element at each position in [ks] is the one that would be there in sorted
      order: everything before is <=, everything after is >=. *)
  Definition is_argpart (l : list V) (ks : list nat) (p : list nat) : Prop :=
    Permutation p (seq 0 (length l)) /\
    forall k, In k ks -> forall a,
      (a < k -> sle (vat l (nth a p 0)) (vat l (nth k p 0)) = true) /\
      (k < a -> a < length l -> sle (vat l (nth k p 0)) (vat l (nth a p 0)) = true).

  (** np.partition(l, kth=ks): the values themselves rearranged the same way *)
  Definition is_part (l : list V) (ks : list nat) (q : list V) : Prop :=
    Permutation q l /\
    forall k, In k ks -> forall a,
      (a < k -> sle (vat q a) (vat q k) = true) /\
      (k < a -> a < length l -> sle (vat q k) (vat q a) = true).

  (** an implementation meets the contract on all legal inputs *)
  Definition argsort_ok (f : list V -> list nat) : Prop :=
    forall l, is_argsort l (f l).
  Definition argpart_ok (f : list V -> list nat -> list nat) : Prop :=
    forall l ks, (forall k, In k ks -> k < length l) -> is_argpart l ks (f l ks).
  Definition part_ok (f : list V -> list nat -> list V) : Prop :=
    forall l ks, (forall k, In k ks -> k < length l) -> is_part l ks (f l ks).

  (** The call as the Python code sees it: [kth] may be negative (counted from
      the end); out of bounds raises ValueError. *)
  Definition kth_legal (n : nat) (kth : list Z) : bool :=
    forallb (fun z => (- Z.of_nat n <=? z)%Z && (z <? Z.of_nat n)%Z) kth.

  Definition np_argpartition (f : list V -> list nat -> list nat)
      (l : list V) (kth : list Z) : result (list nat) :=
    if kth_legal (length l) kth
    then Ok (f l (map (py_norm (length l)) kth)) else Raise ValueError.

  Definition np_partition (f : list V -> list nat -> list V)
      (l : list V) (kth : list Z) : result (list V) :=
    if kth_legal (length l) kth
    then Ok (f l (map (py_norm (length l)) kth)) else Raise ValueError.

  (** reference implementation: stable insertion sort of positions *)
  Fixpoint ins (l : list V) (x : nat) (p : list nat) : list nat :=
    match p with
    | [] => [x]
    | y :: p' => if sle (vat l x) (vat l y) then x :: y :: p' else y :: ins l x p'
    end.
  Definition isort (l : list V) (is : list nat) : list nat :=
    fold_right (ins l) [] is.
  Definition ref_argsort (l : list V) : list nat := isort l (seq 0 (length l)).
  Definition ref_argpart (l : list V) (ks : list nat) : list nat := ref_argsort l.
  Definition ref_part (l : list V) (ks : list nat) : list V :=
    map (vat l) (ref_argsort l).
End Contracts.

(* ------------------------------------------------------------------ *)

Section Facts.
  Context {V : Type} {N : Num V} {toX : V -> xr} (CL : CmpLaws V N toX).

  Lemma ins_perm (l : list V) x p : Permutation (ins l x p) (x :: p).
  Proof.
    induction p as [|y p IH]; simpl; [reflexivity|].
    destruct (sle (vat l x) (vat l y)); [reflexivity|].
    rewrite IH. apply perm_swap.
  Qed.

  Lemma isort_perm (l : list V) is : Permutation (isort l is) is.
  Proof.
    induction is as [|x is IH]; simpl; [reflexivity|].
    rewrite ins_perm. now constructor.
  Qed.

  Definition vle (l : list V) (i j : nat) : Prop := sle (vat l i) (vat l j) = true.

  Lemma ins_sorted (l : list V) x p :
    StronglySorted (vle l) p -> StronglySorted (vle l) (ins l x p).
  Proof.
    induction p as [|y p IH]; simpl; intros H.
    - constructor; constructor.
    - inversion H as [|? ? Hs Hf]; subst.
      destruct (sle (vat l x) (vat l y)) eqn:E.
      + constructor; [assumption|]. constructor; [assumption|].
        rewrite Forall_forall in *. intros z Hz. unfold vle in *.
        eapply (sle_trans CL); eauto.
      + constructor; [auto|]. rewrite Forall_forall in *. intros z Hz.
        eapply Permutation_in in Hz; [|apply ins_perm].
        destruct Hz as [<-|Hz]; [|auto].
        unfold vle. destruct (sle_total CL (vat l x) (vat l y)); congruence.
  Qed.

  Lemma isort_sorted (l : list V) is : StronglySorted (vle l) (isort l is).
  Proof. induction is; simpl; [constructor|]. now apply ins_sorted. Qed.

  Lemma StronglySorted_nth {A} (R : A -> A -> Prop) p d :
    StronglySorted R p -> forall a b, a < b -> b < length p -> R (nth a p d) (nth b p d).
  Proof.
    induction 1 as [|x p Hs IH Hf]; intros a b Hab Hb; simpl in *; [lia|].
    destruct b as [|b]; [lia|]. destruct a as [|a].
    - rewrite Forall_forall in Hf. apply Hf. apply nth_In. lia.
    - apply IH; lia.
  Qed.

  Lemma ref_argsort_ok : argsort_ok ref_argsort.
  Proof.
    intros l. split.
    - apply isort_perm.
    - intros a b Hab Hb.
      pose proof (isort_sorted l (seq 0 (length l))) as Hs.
      apply (StronglySorted_nth _ _ 0 Hs a b Hab).
      now rewrite (Permutation_length (isort_perm l _)), seq_length.
  Qed.

  Lemma argsort_argpart (l : list V) p ks :
    is_argsort l p -> (forall k, In k ks -> k < length l) -> is_argpart l ks p.
  Proof.
    intros (Hp & Hs) Hk. split; [assumption|]. intros k Hin a. split; intros.
    - apply Hs; auto.
    - apply Hs; auto.
  Qed.

  Lemma ref_argpart_ok : argpart_ok ref_argpart.
  Proof. intros l ks H. apply argsort_argpart; auto. apply ref_argsort_ok. Qed.

  Lemma map_vat_seq (l : list V) : map (vat l) (seq 0 (length l)) = l.
  Proof.
    apply (nth_ext _ _ nnan nnan).
    - now rewrite map_length, seq_length.
    - intros n Hn. rewrite map_length, seq_length in Hn.
      now rewrite nth_map_seq.
  Qed.

  Lemma vat_map (l : list V) p a : a < length p -> vat (map (vat l) p) a = vat l (nth a p 0).
  Proof.
    intros H. unfold vat at 1. rewrite (nth_indep _ nnan (vat l 0)) by now rewrite map_length.
    now rewrite map_nth.
  Qed.

  (** an argpartition induces a partition of the values *)
  Lemma argpart_part (l : list V) ks p :
    is_argpart l ks p -> (forall k, In k ks -> k < length l) -> is_part l ks (map (vat l) p).
  Proof.
    intros (Hp & Hs) Hks.
    pose proof (perm_seq_length _ _ Hp) as Hl.
    split.
    - rewrite <- (map_vat_seq l) at 2. now apply Permutation_map.
    - intros k Hk a. specialize (Hs k Hk a) as (H1 & H2).
      assert (k < length l) by auto.
      split; intros.
      + rewrite !vat_map by lia. auto.
      + rewrite !vat_map by lia. auto.
  Qed.

  Lemma ref_part_ok : part_ok ref_part.
  Proof.
    intros l ks H. apply (argpart_part l ks (ref_argsort l)); auto.
    apply argsort_argpart; auto. apply ref_argsort_ok.
  Qed.

  (** Shuffling first and translating back is just another admissible result. *)
  Lemma argpart_shuffle (l : list V) ks rp p :
    Permutation rp (seq 0 (length l)) ->
    (forall k, In k ks -> k < length l) ->
    is_argpart (map (vat l) rp) ks p ->
    is_argpart l ks (map (fun j => nth j rp 0) p).
  Proof.
    intros Hrp Hks (Hp & Hs).
    pose proof (perm_seq_length _ _ Hrp) as Lrp.
    rewrite map_length, Lrp in Hp.
    pose proof (perm_seq_length _ _ Hp) as Lp.
    assert (Hmap : map (fun j => nth j rp 0) (seq 0 (length l)) = rp).
    { apply (nth_ext _ _ 0 0).
      - now rewrite map_length, seq_length.
      - intros n Hn. rewrite map_length, seq_length in Hn. now rewrite nth_map_seq. }
    split.
    - transitivity rp; [|assumption].
      transitivity (map (fun j => nth j rp 0) (seq 0 (length l)));
        [now apply Permutation_map | now rewrite Hmap].
    - intros k Hk a. assert (Hkl : k < length l) by auto.
      assert (Hv : forall b, b < length l ->
        vat l (nth b (map (fun j => nth j rp 0) p) 0) = vat (map (vat l) rp) (nth b p 0)).
      { intros b Hb.
        rewrite (nth_indep _ 0 ((fun j => nth j rp 0) 0)) by (rewrite map_length; lia).
        rewrite (map_nth (fun j => nth j rp 0)).
        rewrite vat_map; [reflexivity|]. rewrite Lrp.
        apply (perm_seq_nth p); auto. }
      specialize (Hs k Hk a) as (H1 & H2).
      rewrite map_length, Lrp in H2.
      split; intros.
      + rewrite !Hv by lia. auto.
      + rewrite !Hv by lia. auto.
  Qed.

End Facts.
