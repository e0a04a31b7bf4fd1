(** local_scaling_sample and nicdm_sample. *)
From Coq Require Import String.
From Coq Require Import ZArith Reals Lra List Arith Lia Bool Permutation.
From Verif Require Import Py Num NumT Arr Sort Conc S_Neighbors S_LS M_IO M_Hubness M_SNN M_LS.
From Verif Require Import P_Neighbors P_Hubness P_MPEmpiric P_SNN P_LS P_LS2 P_LS3 P_NICDM.
Import ListNotations.
Local Open Scope nat_scope.

Fixpoint index_of (x : nat) (l : list nat) : nat :=
  match l with [] => 0 | y :: l' => if y =? x then 0 else S (index_of x l') end.

Lemma index_of_nth l j : NoDup l -> j < length l -> index_of (nth j l 0) l = j.
Proof.
  intros Hn. revert j. induction Hn as [|y l Hy Hn IH]; intros j Hj; simpl in Hj; [lia|].
  destruct j as [|j]; simpl; [now rewrite Nat.eqb_refl|].
  destruct (Nat.eqb_spec y (nth j l 0)) as [->|_].
  - exfalso. apply Hy. apply nth_In. lia.
  - f_equal. apply IH. lia.
Qed.

Lemma list_nth_seq {A} (l : list A) d : l = map (fun j => nth j l d) (seq 0 (length l)).
Proof.
  apply (nth_ext _ _ d d); [now rewrite map_length, seq_length|].
  intros a Ha. now rewrite nth_map_seq.
Qed.

Section S.
  Context {V : Type} {N : Num V} {toX : V -> xr} (CL : CmpLaws V N toX).
  Definition expand (train : list nat) (D : arr2 V) : arr2 V :=
    Arr2 (nrow D) (nrow D) (fun i p => at2 D i (index_of p train)).

  Lemma sample_row (D : arr2 V) train e i : NoDup train ->
    map (at2 (set_cells train e D) i) (seq 0 (length train)) = map (at2 (fill_diagonal (expand train D) e) i) train.
  Proof.
    intros Hn. rewrite (list_nth_seq train 0) at 4. rewrite map_map. apply map_ext_in. intros j Hj. apply in_seq in Hj.
    rewrite set_cells_at. replace (j <? length train) with true by (symmetry; apply Nat.ltb_lt; lia). cbn [andb fill_diagonal at2 expand].
    rewrite index_of_nth by (auto; lia). reflexivity.
  Qed.
  Lemma sample_others_eq (D : arr2 V) train i : NoDup train -> sample_others D train i = others (expand train D) train i.
  Proof.
    intros Hn. unfold sample_others, others. rewrite (list_nth_seq train 0) at 3.
    assert (G : forall l, (forall j, In j l -> j < length train) ->
      map (at2 D i) (filter (fun j => negb (nth j train 0 =? i)) l) =
      map (at2 (expand train D) i) (filter (fun x => negb (x =? i)) (map (fun j => nth j train 0) l))).
    { induction l as [|j l IH]; intros Hl; [reflexivity|]. cbn [filter map].
      specialize (IH (fun y Hy => Hl y (or_intror Hy))). specialize (Hl j (or_introl eq_refl)).
      destruct (negb (nth j train 0 =? i)); cbn [map]; rewrite IH; [|reflexivity].
      f_equal. cbn [expand at2]. now rewrite index_of_nth. }
    apply G. intros j Hj. apply in_seq in Hj. lia.
  Qed.
  Lemma sample_others_len (D : arr2 V) train i : NoDup train -> length train <= S (length (sample_others D train i)).
  Proof.
    intros Hn. rewrite sample_others_eq by assumption. destruct (in_dec Nat.eq_dec i train) as [Hi|Hi].
    - rewrite (others_length _ _ _ Hn Hi). lia.
    - unfold others. rewrite map_length, filter_all; [lia|]. intros x Hx. apply negb_true_iff, Nat.eqb_neq. congruence.
  Qed.
  Lemma sample_others_in (D : arr2 V) train i x : In x (sample_others D train i) ->
    exists j, j < length train /\ nth j train 0 <> i /\ x = at2 D i j.
  Proof.
    unfold sample_others. intros H. apply in_map_iff in H. destruct H as (j & <- & H). apply filter_In in H.
    destruct H as (H & Hn). apply in_seq in H. exists j. split; [lia|]. split; [|reflexivity].
    intros E. apply Nat.eqb_eq in E. now rewrite E in Hn.
  Qed.

  Variable part : list V -> list nat -> list V.
  Hypothesis PO : part_ok part.

  Lemma ls_radius_sample (D : arr2 V) train k i : NoDup train ->
    (forall x, In x (sample_others D train i) -> nisfin x = true) -> 0 < k < length train ->
    exists v, ls_radius part (set_cells train ninf D) (seq 0 (length train)) (Z.of_nat k - 1) i = Ok v /\
      kth_smallest (sample_others D train i) k v.
  Proof.
    intros Hn Hf Hk. pose proof (sample_others_len D train i Hn) as HL. rewrite sample_others_eq in * by assumption.
    destruct (ls_radius_dist CL part PO (expand train D) train k i Hn Hf) as (v & E & K); [lia|].
    exists v. split; [|assumption]. unfold ls_radius in *. rewrite sample_row by assumption. now rewrite seq_length.
  Qed.
  Lemma nicdm_radius_sample vsum (D : arr2 V) train k i : NoDup train ->
    (forall x, In x (sample_others D train i) -> nisfin x = true) -> 0 < k < length train ->
    exists s, nicdm_radius vsum part (set_cells train ninf D) (seq 0 (length train)) (Z.of_nat k) i = Ok (vmean vsum s) /\
      k_smallest (sample_others D train i) k s.
  Proof.
    intros Hn Hf Hk. pose proof (sample_others_len D train i Hn) as HL. rewrite sample_others_eq in * by assumption.
    destruct (nicdm_radius_spec CL part PO vsum (expand train D) train k i Hn Hf) as (v & E & K & _); [lia|].
    exists v. split; [|assumption]. unfold nicdm_radius in *. rewrite sample_row by assumption. assumption.
  Qed.

  (** rows written by the sample loops *)
  Lemma sample_matrix (D : arr2 V) train test (f : nat -> nat -> V) : length train = ncol D ->
    match test with None => True | Some t => forall s, In s t -> s < nrow D end ->
    let n_ind := match test with None => seq 0 (nrow D) | Some t => t end in
    let L := fold_left (fun M i => setrow M i 0 (ncol D) (f i)) n_ind (full2 (nrow D) (ncol D) n0) in
    exists M, match test with
      | None => Ok (fill_diagonal L n0)
      | Some t => Ok (Arr2 (length t) (ncol D) (fun a b => at2 (set_cells train n0 L) (nth a t 0) b))
      end = Ok M /\
      nrow M = length n_ind /\ ncol M = ncol D /\
      forall a j, a < nrow M -> j < ncol D -> at2 M a j =
        match test with
        | None => if a =? j then n0 else f a j
        | Some t => if nth j train 0 =? nth a t 0 then n0 else f (nth a t 0) j
        end.
  Proof.
    intros Hl Ht n_ind L.
    destruct (rows_shape n_ind (ncol D) f (full2 (nrow D) (ncol D) n0)) as (R & C).
    assert (A : forall a j, In a n_ind -> j < ncol D -> at2 L a j = f a j).
    { intros a j Ha Hj. unfold L. rewrite rows_loop by assumption. now rewrite (proj2 (existsb_In a n_ind) Ha). }
    destruct test as [t|]; eexists; (split; [reflexivity|]); cbn [fill_diagonal nrow ncol at2].
    - split; [reflexivity|]. split; [reflexivity|]. intros a j Ha Hj. rewrite set_cells_at.
      replace (j <? length train) with true by (symmetry; apply Nat.ltb_lt; lia). cbn [andb].
      rewrite (Nat.eqb_sym (nth a t 0)). destruct (nth j train 0 =? nth a t 0); [reflexivity|].
      apply A; [now apply nth_In|assumption].
    - split; [unfold L; rewrite R; unfold n_ind; now rewrite seq_length|]. split; [exact C|].
      intros a j Ha Hj. destruct (a =? j); [reflexivity|]. apply A; [|assumption].
      apply in_seq. unfold L in Ha. rewrite R in Ha. cbn [full2 nrow] in Ha. lia.
  Qed.
End S.

Lemma mapM_all {A B} (f : A -> result B) l : (forall x, In x l -> exists v, f x = Ok v) -> exists r, mapM f l = Ok r.
Proof.
  induction l as [|x l IH]; intros H; [now exists []|].
  destruct (H x (or_introl eq_refl)) as (v & E). destruct IH as (r & Er); [intros; apply H; now right|].
  exists (v :: r). cbn [mapM]. now rewrite E, Er.
Qed.
