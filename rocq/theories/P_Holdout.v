(** Proofs: the held-out argument matters only through its values in 0..n-1. *)
From Coq Require Import String.
From Coq Require Import ZArith Reals Lra List Arith Lia Bool.
From Verif Require Import Py Num NumT Arr Conc M_LS M_Centering M_MPDist M_Holdout S_Holdout.
Import ListNotations.
Local Open Scope nat_scope.

Lemma train_same (h : held) n : ls_train n (held_positions h) = train_rows n (held_values h).
Proof.
  unfold held_positions. destruct (held_values h) as [l|]; [|reflexivity]. cbn.
  apply filter_ext. intro x. f_equal.
  induction l as [|z l IH]; [reflexivity|]. cbn.
  destruct (Z.leb_spec 0 z); cbn; rewrite IH; [|].
  - f_equal. destruct (Nat.eqb_spec x (Z.to_nat z)), (Z.eqb_spec (Z.of_nat x) z); try reflexivity; lia.
  - destruct (Z.eqb_spec (Z.of_nat x) z); [lia|reflexivity].
Qed.

Lemma existsb_in x l : existsb (Z.eqb (Z.of_nat x)) l = true <-> In (Z.of_nat x) l.
Proof.
  rewrite existsb_exists. split.
  - intros [z [H E]]. apply Z.eqb_eq in E. subst. exact H.
  - intro H. exists (Z.of_nat x). split; [exact H|apply Z.eqb_refl].
Qed.

Lemma train_ext n l l' : (forall i, i < n -> (In (Z.of_nat i) l <-> In (Z.of_nat i) l')) ->
  train_rows n (Some l) = train_rows n (Some l').
Proof.
  intro H. cbn. apply filter_ext_in. intros x Hx. apply in_seq in Hx. f_equal.
  apply eq_iff_eq_true. rewrite !existsb_in. apply H. lia.
Qed.

Lemma train_in n l i : In i (train_rows n (Some l)) <-> i < n /\ ~ In (Z.of_nat i) l.
Proof.
  cbn. rewrite filter_In, in_seq, negb_true_iff, <- not_true_iff_false, existsb_in. intuition lia.
Qed.

Section Same.
  Context {V : Type} {N : Num V}.
  Variables (vsum : list V -> V) (vpow : V -> V -> V) (vexp vln : V -> V).
  Variable part : list V -> list nat -> list V.
  Variables vcdf vsf : V -> V -> V -> V.
  Variable vgam : V -> V -> V.

  Lemma ls_radii_ext (D : arr2 V) k metric t t' : ls_train (nrow D) t = ls_train (nrow D) t' ->
    ls_radii part D k metric t = ls_radii part D k metric t'.
  Proof. intro E. unfold ls_radii. rewrite E. reflexivity. Qed.
  Lemma nicdm_radii_ext (D : arr2 V) k metric t t' : ls_train (nrow D) t = ls_train (nrow D) t' ->
    nicdm_radii vsum part D k metric t = nicdm_radii vsum part D k metric t'.
  Proof. intro E. unfold nicdm_radii. rewrite E. reflexivity. Qed.

  Lemma ls_ext (D : arr2 V) k metric t t' cpu jobs r : ls_train (nrow D) t = ls_train (nrow D) t' ->
    local_scaling vexp part D k metric t cpu jobs r -> local_scaling vexp part D k metric t' cpu jobs r.
  Proof.
    intros E H. pose proof (ls_radii_ext D k metric t t' E) as R.
    destruct H as [H|H|e H HR|rs r data H HR P1 P2].
    - replace (local_scaling_serial vexp part D k metric t) with (local_scaling_serial vexp part D k metric t')
        by (unfold local_scaling_serial; rewrite R; reflexivity). constructor. exact H.
    - rewrite R. constructor. exact H.
    - apply ls_fail; [exact H|congruence].
    - apply ls_pool with rs r; [exact H|congruence|exact P1|exact P2].
  Qed.
  Lemma nicdm_ext (D : arr2 V) k metric t t' cpu jobs r : ls_train (nrow D) t = ls_train (nrow D) t' ->
    nicdm vexp vln vsum part D k metric t cpu jobs r -> nicdm vexp vln vsum part D k metric t' cpu jobs r.
  Proof.
    intros E H. pose proof (nicdm_radii_ext D k metric t t' E) as R.
    destruct H as [H|e H HR|rs r data H HR P1 P2].
    - replace (nicdm_serial vexp vln vsum part D k metric t) with (nicdm_serial vexp vln vsum part D k metric t')
        by (unfold nicdm_serial; rewrite R; reflexivity). constructor. exact H.
    - apply ni_fail; [exact H|congruence].
    - apply ni_pool with rs r; [exact H|congruence|exact P1|exact P2].
  Qed.

  (** two arguments with the same values among the positions 0..n-1 *)
  Definition reads_alike (n : nat) (h h' : held) : Prop :=
    exists l l', held_values h = Some l /\ held_values h' = Some l' /\
      forall i, i < n -> (In (Z.of_nat i) l <-> In (Z.of_nat i) l').
  Lemma alike_sym n h h' : reads_alike n h h' -> reads_alike n h' h.
  Proof. intros [l [l' [A [B C]]]]. exists l', l. repeat split; try assumption; apply C; assumption. Qed.
  Lemma alike_rows n h h' : reads_alike n h h' -> train_rows n (held_values h) = train_rows n (held_values h').
  Proof. intros [l [l' [A [B C]]]]. rewrite A, B. apply train_ext, C. Qed.
  Lemma alike_train n h h' : reads_alike n h h' ->
    ls_train n (held_positions h) = ls_train n (held_positions h').
  Proof. intro H. rewrite !train_same. apply alike_rows, H. Qed.

  Lemma same_ls (D : arr2 V) k metric h h' cpu jobs r : reads_alike (nrow D) h h' ->
    (local_scaling_h vexp part D k metric h cpu jobs r <-> local_scaling_h vexp part D k metric h' cpu jobs r).
  Proof.
    intro H. split; apply ls_ext; apply alike_train; [exact H|apply alike_sym, H].
  Qed.
  Lemma same_nicdm (D : arr2 V) k metric h h' cpu jobs r : reads_alike (nrow D) h h' ->
    (nicdm_h vsum vexp vln part D k metric h cpu jobs r <-> nicdm_h vsum vexp vln part D k metric h' cpu jobs r).
  Proof.
    intro H. split; apply nicdm_ext; apply alike_train; [exact H|apply alike_sym, H].
  Qed.
  Lemma same_cent (X : arr2 V) metric h h' : reads_alike (nrow X) h h' ->
    centering_h vsum X metric h = centering_h vsum X metric h'.
  Proof.
    intro H. pose proof (alike_train _ _ _ H) as E. destruct H as [l [l' [A [B _]]]].
    unfold centering_h, centering. rewrite E. unfold held_positions. rewrite A, B. reflexivity.
  Qed.
  Lemma same_wcent (X : arr2 V) metric gamma h h' : reads_alike (nrow X) h h' ->
    weighted_centering_h vsum vpow X metric gamma h = weighted_centering_h vsum vpow X metric gamma h'.
  Proof.
    intro H. unfold weighted_centering_h, weighted_centering. rewrite (alike_train _ _ _ H). reflexivity.
  Qed.
  Lemma same_gaussi (D : arr2 V) metric s h h' idx : reads_alike (nrow D) h h' ->
    gaussi_h vsum vcdf vsf D metric s h idx = gaussi_h vsum vcdf vsf D metric s h' idx.
  Proof. intro H. unfold gaussi_h, gaussi. rewrite (alike_rows _ _ _ H). reflexivity. Qed.
  Lemma same_gammai (D : arr2 V) metric h h' : reads_alike (nrow D) h h' ->
    gammai_h vsum vgam D metric h = gammai_h vsum vgam D metric h'.
  Proof. intro H. unfold gammai_h, gammai. rewrite (alike_rows _ _ _ H). reflexivity. Qed.
End Same.

Lemma mask_reads n m l : marks_some m -> (forall i, i < n -> (In (Z.of_nat i) l <-> i = 0 \/ i = 1)) ->
  reads_alike n (HMask m) (HInts l).
Proof.
  intros [T F] H. eexists _, _. split; [reflexivity|]. split; [reflexivity|].
  intros i Hi. rewrite (H i Hi), in_map_iff. split.
  - intros [[] [E _]]; lia.
  - intros [->| ->]; [exists false|exists true]; auto.
Qed.
Lemma mask_mask n m m' : marks_some m -> marks_some m' -> reads_alike n (HMask m) (HMask m').
Proof.
  intros [T F] [T' F']. eexists _, _. split; [reflexivity|]. split; [reflexivity|].
  intros i Hi. rewrite !in_map_iff. split; intros [[] [E _]]; try (exists true; now auto); exists false; auto.
Qed.
Lemma ints_inside n l :
  reads_alike n (HInts l) (HInts (filter (fun z => (0 <=? z)%Z && (z <? Z.of_nat n)%Z) l)).
Proof.
  eexists _, _. split; [reflexivity|]. split; [reflexivity|].
  intros i Hi. rewrite filter_In, andb_true_iff, Z.leb_le, Z.ltb_lt. intuition lia.
Qed.
Lemma ints_same n l l' : (forall z, In z l <-> In z l') -> reads_alike n (HInts l) (HInts l').
Proof. intro H. exists l, l'. split; [reflexivity|]. split; [reflexivity|]. intros; apply H. Qed.
