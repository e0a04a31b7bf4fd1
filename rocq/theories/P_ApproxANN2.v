(** Facts about exact candidate lists. *)
From Coq Require Import ZArith List Arith Lia Bool Permutation.
From Verif Require Import Py Num Arr Sort S_Neighbors S_LS S_Approx S_ApproxANN P_Neighbors P_LS.
Import ListNotations.

Lemma NoDup_app_intro {A} (l1 l2 : list A) : NoDup l1 -> NoDup l2 -> (forall x, In x l1 -> In x l2 -> False) -> NoDup (l1 ++ l2).
Proof.
  induction l1 as [|a l1 IH]; intros H1 H2 D; [exact H2|]. cbn. inversion H1; subst. constructor.
  - intros I. apply in_app_iff in I as [I|I]; [contradiction|]. apply (D a); [now left|exact I].
  - apply IH; auto. intros x X1 X2. apply (D x); [now right|exact X2].
Qed.

Section Nearest.
  Context {V : Type} {N : Num V} {toX : V -> xr} (CL : CmpLaws V N toX).

  Lemma nle_not_gt (x y : V) : nle x y = true -> nlt y x = false.
  Proof using CL.
    intros H. destruct (nle_nan_r CL _ _ H) as (A & B). rewrite (nle_not_lt CL) in H by assumption. now apply negb_true_iff.
  Qed.

  Lemma nearest_split (d : nat -> V) pool k nb : NoDup pool -> nearest_first d pool k nb ->
    exists rest, Permutation pool (nb ++ rest) /\ forall l, In l rest -> In l pool /\ ~ In l nb.
  Proof using.
    intros ND (_ & ND' & I & _).
    exists (filter (fun l => negb (existsb (Nat.eqb l) nb)) pool).
    assert (E : forall l, existsb (Nat.eqb l) nb = true <-> In l nb).
    { intros l. rewrite existsb_exists. split; [intros (x & Hx & Ex); apply Nat.eqb_eq in Ex; now subst|]. intros Hl. exists l. split; [exact Hl|apply Nat.eqb_refl]. }
    assert (F : forall l, In l (filter (fun l => negb (existsb (Nat.eqb l) nb)) pool) <-> In l pool /\ ~ In l nb).
    { intros l. rewrite filter_In, negb_true_iff. rewrite <- (E l). destruct (existsb (Nat.eqb l) nb); intuition discriminate. }
    split; [|intros l; apply F]. apply NoDup_Permutation; [exact ND| |].
    - apply NoDup_app_intro; auto using NoDup_filter. intros l H1 H2. now apply F in H2.
    - intros l. rewrite in_app_iff, F. destruct (in_dec Nat.eq_dec l nb); intuition.
  Qed.

  Lemma nearest_firstn (d : nat -> V) pool k nb kth : kth <= k -> nearest_first d pool k nb -> nearest_first d pool kth (firstn kth nb).
  Proof using.
    intros Hk (L & ND & I & As & Out). split; [rewrite firstn_length; lia|]. split; [now apply NoDup_firstn|]. split; [|split].
    - intros x Hx. apply I. rewrite <- (firstn_skipn kth nb). apply in_app_iff. now left.
    - intros p q Hpq Hq. rewrite !nth_firstn_lt by lia. apply As; lia.
    - intros a l Ha Hl Hn. destruct (in_dec Nat.eq_dec l nb) as [Hl'|Hl'].
      + apply (In_nth _ _ 0) in Ha as (p & Hp & <-). rewrite firstn_length in Hp. rewrite nth_firstn_lt by lia.
        apply (In_nth _ _ 0) in Hl' as (q & Hq & <-). apply As; [|lia].
        destruct (Nat.lt_ge_cases q kth) as [C|C]; [|lia]. exfalso. apply Hn. rewrite <- (nth_firstn_lt kth) by exact C. apply nth_In. rewrite firstn_length. lia.
      + apply Out; auto. rewrite <- (firstn_skipn kth nb). apply in_app_iff. now left.
  Qed.

  Lemma nearest_k_smallest (d : nat -> V) pool k nb kth : NoDup pool -> kth <= k -> nearest_first d pool k nb ->
    k_smallest (map d pool) kth (map d (firstn kth nb)).
  Proof using CL.
    intros ND Hk H. pose proof (nearest_firstn d pool k nb kth Hk H) as H'. destruct (nearest_split d pool kth _ ND H') as (rest & P & Hr).
    destruct H' as (L & _ & _ & _ & Out). split; [now rewrite map_length|]. exists (map d rest). split; [rewrite <- map_app; now apply Permutation_map|].
    intros x y Hx Hy. apply in_map_iff in Hx as (a & <- & Ha). apply in_map_iff in Hy as (b & <- & Hb).
    destruct (Hr b Hb) as (B1 & B2). apply nle_not_gt. now apply Out.
  Qed.

  Lemma nearest_rank (d : nat -> V) pool k nb kth : NoDup pool -> 1 <= kth <= k -> nearest_first d pool k nb ->
    has_rank (map d pool) kth (d (nth (kth - 1) nb 0)).
  Proof using CL.
    intros ND Hk H. set (v := d (nth (kth - 1) nb 0)).
    assert (G : forall f : V -> bool, length (filter f (map d pool)) = length (filter (fun l => f (d l)) pool)).
    { intros f. induction pool as [|a p IH]; [reflexivity|]. cbn. inversion ND; subst. assert (E : forall q, length (filter f (map d q)) = length (filter (fun l => f (d l)) q)).
      { clear. induction q as [|b q IH]; [reflexivity|]. cbn. destruct (f (d b)); cbn; congruence. } destruct (f (d a)); cbn; now rewrite E. }
    unfold has_rank. rewrite !G. clear G. destruct H as (L & NDb & I & As & Out). split.
    - assert (S : incl (filter (fun l => nlt (d l) v) pool) (firstn (kth - 1) nb)).
      { intros l Hl. apply filter_In in Hl as (Hl & Hlt). destruct (in_dec Nat.eq_dec l nb) as [C|C].
        - apply (In_nth _ _ 0) in C as (q & Hq & <-). destruct (Nat.lt_ge_cases q (kth - 1)) as [B|B].
          + rewrite <- (nth_firstn_lt (kth - 1)) by exact B. apply nth_In. rewrite firstn_length. lia.
          + pose proof (nle_not_gt _ _ (As (kth - 1) q B ltac:(lia))) as F. fold v in F. congruence.
        - pose proof (nle_not_gt _ _ (Out (nth (kth - 1) nb 0) l ltac:(apply nth_In; lia) Hl C)) as F. fold v in F. congruence. }
      apply NoDup_incl_length in S; [|now apply NoDup_filter]. rewrite firstn_length in S. lia.
    - assert (S : incl (firstn kth nb) (filter (fun l => nle (d l) v) pool)).
      { intros l Hl. apply (In_nth _ _ 0) in Hl as (p & Hp & <-). rewrite firstn_length in Hp. rewrite nth_firstn_lt by lia.
        apply filter_In. split; [apply I, nth_In; lia|]. apply As; lia. }
      apply NoDup_incl_length in S; [|now apply NoDup_firstn]. rewrite firstn_length in S. lia.
  Qed.
End Nearest.
