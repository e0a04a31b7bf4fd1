(** Dropping the first of k+1 neighbours: when it is right and when it is not. *)
From Coq Require Import String.
From Coq Require Import ZArith List Arith Lia Bool Permutation Sorting.
From Verif Require Import Py Num Arr Sort Conc S_Neighbors S_HubnessClass P_Neighbors M_Hubness M_Dist M_KNN M_HubnessClass P_Hubness P_HubnessClass.
Import ListNotations.
Local Open Scope nat_scope.

Lemma knn_drop_self better m k i L : knn_list better m (1 + k) L -> i < m ->
  (forall x, x < m -> x <> i -> better i x = true) ->
  knn_others better m k i (skipn 1 L).
Proof.
  intros [K1 K2 K3 K4 K5] Hi Hs. destruct L as [|h t]; [cbn in K1; lia|]. cbn [skipn].
  assert (Eh : h = i).
  { destruct (Nat.eq_dec h i) as [|Hne]; [assumption|exfalso].
    assert (Hh : h < m) by (apply K3; now left).
    destruct (in_dec Nat.eq_dec i (h :: t)) as [Hin|Hout].
    - apply (In_nth _ _ 0) in Hin as (b & Hb & Eb). destruct b as [|b]; [cbn in Eb; congruence|].
      specialize (K4 0 (S b) ltac:(lia) ltac:(rewrite K1 in Hb; lia)). rewrite Eb in K4. cbn [nth] in K4.
      rewrite Hs in K4 by auto. discriminate.
    - specialize (K5 i h Hi Hout (or_introl eq_refl)). rewrite Hs in K5 by auto. discriminate. }
  subst h. inversion K2; subst. constructor.
  - cbn in K1. lia.
  - assumption.
  - intros x Hx. split; [apply K3; now right|]. intros ->. contradiction.
  - intros a b Hab Hb. apply (K4 (S a) (S b)); lia.
  - intros x y Hx Hne Hnin Hy. apply K5; auto.
    + intros [E|Hin]; [congruence|contradiction].
    + now right.
Qed.

Section Adv.
  Context {V : Type} {N : Num V} {toX : V -> xr} (CL : CmpLaws V N toX).

  (** an argpartition that sorts, and lists [j] and then [i] first whenever
      both are minimal *)
  Definition minimal (l : list V) (i : nat) : bool :=
    forallb (fun x => sle (vat l i) (vat l x)) (seq 0 (length l)).
  Definition adv_argpart (i j : nat) (l : list V) (ks : list nat) : list nat :=
    let p := ref_argsort l in
    if (i <? length l) && (j <? length l) && minimal l i && minimal l j
    then j :: i :: filter (fun x => negb (x =? i) && negb (x =? j)) p
    else p.

  Lemma filter_sorted {A} (R : A -> A -> Prop) f l : StronglySorted R l -> StronglySorted R (filter f l).
  Proof.
    induction 1 as [|x l Hs IH Hf]; cbn; [constructor|]. destruct (f x); [|assumption].
    constructor; [assumption|]. rewrite Forall_forall in *. intros y Hy. apply filter_In in Hy as (Hy & _). auto.
  Qed.

  Lemma perm_pull (p : list nat) x : NoDup p -> In x p -> Permutation p (x :: filter (fun y => negb (y =? x)) p).
  Proof.
    induction p as [|y p IH]; intros Hn Hin; [contradiction|]. inversion Hn; subst. cbn [filter].
    destruct (Nat.eqb_spec y x) as [->|Hne].
    - cbn. apply perm_skip. replace (filter _ p) with p; [reflexivity|].
      clear -H1. induction p as [|z p IH]; [reflexivity|]. cbn.
      destruct (Nat.eqb_spec z x) as [->|]; [exfalso; apply H1; now left|]. cbn. f_equal. apply IH.
      intros H; apply H1; now right.
    - cbn. destruct Hin as [->|Hin]; [congruence|]. rewrite perm_swap. apply perm_skip. auto.
  Qed.

  Lemma adv_argpart_ok i j : i <> j -> argpart_ok (adv_argpart i j).
  Proof.
    intros Hij l ks Hks. unfold adv_argpart.
    pose proof (ref_argsort_ok CL l) as (HP & HS).
    destruct (_ && _)%bool eqn:E; [|apply argsort_argpart; [split; assumption|assumption]].
    apply andb_prop in E as (E & Mj). apply andb_prop in E as (E & Mi). apply andb_prop in E as (Li & Lj).
    apply Nat.ltb_lt in Li, Lj.
    apply argsort_argpart; [|assumption].
    set (p := ref_argsort l) in *.
    assert (ND : NoDup p) by (eapply Permutation_NoDup; [symmetry; exact HP|apply seq_NoDup]).
    assert (P2 : Permutation p (j :: i :: filter (fun x => negb (x =? i) && negb (x =? j)) p)).
    { assert (Hj : In j p) by (eapply Permutation_in; [symmetry; exact HP|apply in_seq; lia]).
      assert (Hi : In i p) by (eapply Permutation_in; [symmetry; exact HP|apply in_seq; lia]).
      rewrite (perm_pull p j ND Hj) at 1. apply perm_skip.
      assert (ND' : NoDup (filter (fun y => negb (y =? j)) p)) by (now apply NoDup_filter).
      rewrite (perm_pull (filter (fun y => negb (y =? j)) p) i) at 1; auto.
      - apply perm_skip. clear. induction p as [|x p IH]; [reflexivity|]. cbn [filter].
        destruct (x =? j) eqn:Ej; cbn [negb]; rewrite ?andb_false_r, ?andb_true_r; [exact IH|].
        cbn [filter]. destruct (x =? i); cbn [negb]; [exact IH|]. now apply perm_skip.
      - apply filter_In. split; [assumption|]. apply Nat.eqb_neq in Hij. now rewrite Hij. }
    assert (Mlow : forall w x, minimal l w = true -> x < length l -> sle (vat l w) (vat l x) = true).
    { intros w x Hm Hx. unfold minimal in Hm. rewrite forallb_forall in Hm. apply Hm, in_seq. lia. }
    assert (Rg : forall x, In x p -> x < length l).
    { intros x Hx. eapply Permutation_in in Hx; [|exact HP]. apply in_seq in Hx. lia. }
    split; [now rewrite <- P2|].
    assert (SS : StronglySorted (fun a b => sle (vat l a) (vat l b) = true)
                   (j :: i :: filter (fun x => negb (x =? i) && negb (x =? j)) p)).
    { constructor; [constructor|].
      - apply filter_sorted. apply (isort_sorted CL).
      - apply Forall_forall. intros x Hx. apply filter_In in Hx as (Hx & _). now apply Mlow, Rg.
      - apply Forall_forall. intros x [<-|Hx]; [now apply Mlow|]. apply filter_In in Hx as (Hx & _). now apply Mlow, Rg. }
    intros a b Hab Hb. apply (StronglySorted_nth _ _ 0 SS a b Hab).
    rewrite <- (Permutation_length P2), (Permutation_length HP), seq_length. exact Hb.
  Qed.

  Lemma adv_keeps i j (d : list V) k : i <> j -> i < length d -> j < length d -> 1 <= k -> 1 + k <= length d ->
    minimal d i = true -> minimal d j = true ->
    exists nn, row_nn (adv_argpart i j) (zarange 0 (Z.of_nat (1 + k))) 1 (1 + k) None d = Ok nn /\ In i nn.
  Proof.
    intros Hij Hi Hj Hk Hkd Mi Mj. unfold row_nn. rewrite np_argpart_range by assumption. cbn [bind].
    eexists. split; [reflexivity|]. unfold adv_argpart. rewrite Mi, Mj.
    apply Nat.ltb_lt in Hi, Hj. rewrite Hi, Hj. cbn [andb]. unfold slice. cbn [skipn].
    replace (1 + k - 1) with (S (k - 1)) by lia. cbn [firstn]. now left.
  Qed.
End Adv.
