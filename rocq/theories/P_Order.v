(** Lemmas behind Properties_Order. *)
From Coq Require Import String.
From Coq Require Import ZArith Reals Lra List Arith Lia Bool Permutation Sorting.
From Verif Require Import Py Num Arr Sort S_Neighbors S_SNN S_KNN S_Relabel S_Order M_IO M_Hubness M_SNN M_KNN.
From Verif Require Import P_Neighbors P_GK P_SNN P_KNN P_KNN2 P_KNN4 P_Relabel P_Relabel2.
Import ListNotations.
Local Open Scope nat_scope.

Section Order.
  Context {V : Type} {N : Num V} {toX : V -> xr} (CL : CmpLaws V N toX).

  Lemma near_worst metric (v : V) : nisfin v = true ->
    nearer metric v (worst metric) = true /\ nearer metric (worst metric) v = false /\ nearer metric (worst metric) (worst (V:=V) metric) = false.
  Proof.
    intros F. rewrite (cl_fin _ _ _ CL) in F. unfold nearer, worst. rewrite !(cl_lt _ _ _ CL).
    destruct (is_sim metric); rewrite ?(cl_inf _ _ _ CL), ?(cl_ninf _ _ _ CL); destruct (toX v); try discriminate; auto.
  Qed.
  Lemma worst_irr metric : nearer metric (worst metric) (worst (V:=V) metric) = false.
  Proof. unfold nearer, worst. rewrite !(cl_lt _ _ _ CL). destruct (is_sim metric); rewrite ?(cl_inf _ _ _ CL), ?(cl_ninf _ _ _ CL); reflexivity. Qed.

  Context {metric metric' : string} {D D' : arr2 V} {n : nat} {p q : nat -> nat}.
  Hypothesis RA : ranks_alike metric metric' D D' n p q.
  Let Hp := ra_renaming _ _ _ _ _ _ _ RA.

  Lemma p_lt i : i < n -> p i < n. Proof. intros Hi. now apply Hp. Qed.
  Lemma p_ne i j : i < n -> j < n -> i <> j -> p i <> p j.
  Proof. intros Hi Hj Hn E. apply Hn. now apply (renaming_inj n p q). Qed.

  Lemma rank_alike i x y : i < n -> x < n -> y < n ->
    nearer metric' (rank_value metric' D' i x) (rank_value metric' D' i y) =
    nearer metric (rank_value metric D (p i) (p x)) (rank_value metric D (p i) (p y)).
  Proof.
    intros Hi Hx Hy. unfold rank_value. rewrite !(renaming_eqb n p q) by auto.
    assert (F : forall z, z < n -> z <> i -> nisfin (at2 D' i z) = true /\ nisfin (at2 D (p i) (p z)) = true).
    { intros z Hz Hn. split; [now apply (ra_finite _ _ _ _ _ _ _ RA)|apply (ra_finite _ _ _ _ _ _ _ RA); auto using p_lt, p_ne]. }
    destruct (Nat.eqb_spec x i) as [->|Nx], (Nat.eqb_spec y i) as [->|Ny].
    - now rewrite !worst_irr.
    - destruct (F y Hy Ny) as (F1 & F2). now rewrite (proj1 (proj2 (near_worst metric' _ F1))), (proj1 (proj2 (near_worst metric _ F2))).
    - destruct (F x Hx Nx) as (F1 & F2). now rewrite (proj1 (near_worst metric' _ F1)), (proj1 (near_worst metric _ F2)).
    - now apply (ra_order _ _ _ _ _ _ _ RA).
  Qed.
  Lemma rank_tot i x y : i < n -> x < n -> y < n -> x <> y ->
    nearer metric (rank_value metric D i x) (rank_value metric D i y) = true \/ nearer metric (rank_value metric D i y) (rank_value metric D i x) = true.
  Proof. apply (rank_total CL); [intros; now apply (ra_finite _ _ _ _ _ _ _ RA)|apply RA]. Qed.

  Lemma hood_alike k h h' i : i < n ->
    kset (fun x y => nearer metric (rank_value metric D (p i) x) (rank_value metric D (p i) y)) n k h ->
    kset (fun x y => nearer metric' (rank_value metric' D' i x) (rank_value metric' D' i y)) n k h' ->
    forall x, x < n -> In x h' <-> In (p x) h.
  Proof.
    intros Hi K K' x Hx.
    assert (K2 : kset (fun x y => nearer metric (rank_value metric D (p i) x) (rank_value metric D (p i) y)) n k (map p h')).
    { apply (kset_renamed _ n k p q _ Hp). destruct K' as [k1 k2 k3 k4]. constructor; auto.
      intros u w Hu Hnu Hw. rewrite <- rank_alike by auto. now apply k4. }
    pose proof (fun x y => rank_tot (p i) x y (p_lt i Hi)) as T. split.
    - intros Hin. apply (kset_unique _ _ _ _ _ T K2 K). now apply in_map.
    - intros Hin. apply (kset_unique _ _ _ _ _ T K K2) in Hin. apply in_map_iff in Hin as (y & E & Hy).
      apply (renaming_inj n p q) in E; [now subst|exact Hp| |exact Hx]. now apply (ks_range _ _ _ _ K').
  Qed.

  Lemma ranking_alike l l' i : i < n ->
    ranking (fun x y => nearer metric (rank_value metric D (p i) x) (rank_value metric D (p i) y)) (fun x => x < n /\ nisnan (rank_value metric D (p i) x) = false) l ->
    ranking (fun x y => nearer metric' (rank_value metric' D' i x) (rank_value metric' D' i y)) (fun x => x < n /\ nisnan (rank_value metric' D' i x) = false) l' ->
    l = map p l' /\ forall x, In x l' -> x < n.
  Proof.
    intros Hi [N1 I1 S1] [N2 I2 S2].
    assert (NN : forall m (A : arr2 V) j x, (forall y, y < n -> y <> j -> nisfin (at2 A j y) = true) -> x < n -> nisnan (rank_value m A j x) = false).
    { intros m A j x F Hx. unfold rank_value. destruct (Nat.eqb_spec x j); [apply (worst_ok CL)|].
      specialize (F x Hx n0). rewrite (cl_fin _ _ _ CL) in F. rewrite (cl_nan _ _ _ CL). destruct (toX (at2 A j x)); try discriminate; reflexivity. }
    assert (J1 : forall x, In x l <-> x < n).
    { intros x. rewrite I1. split; [tauto|]. intros Hx. split; [exact Hx|]. apply NN; [|exact Hx]. intros y Hy Hn. apply (ra_finite _ _ _ _ _ _ _ RA); auto using p_lt. }
    assert (J2 : forall x, In x l' <-> x < n).
    { intros x. rewrite I2. split; [tauto|]. intros Hx. split; [exact Hx|]. apply NN; [|exact Hx]. intros y Hy Hn. now apply (ra_finite _ _ _ _ _ _ _ RA). }
    split; [|intros x; apply J2].
    assert (L1 : length l = n).
    { rewrite (Permutation_length (l' := seq 0 n)); [apply seq_length|]. apply NoDup_Permutation; [exact N1|apply seq_NoDup|]. intros x. rewrite J1, in_seq. lia. }
    assert (L2 : length l' = n).
    { rewrite (Permutation_length (l' := seq 0 n)); [apply seq_length|]. apply NoDup_Permutation; [exact N2|apply seq_NoDup|]. intros x. rewrite J2, in_seq. lia. }
    set (b := fun x y => nearer metric (rank_value metric D (p i) x) (rank_value metric D (p i) y)) in *.
    assert (NT : forall l, (forall x, In x l -> x < n) -> NoDup l -> NoDup (map p l)).
    { clear - Hp. induction l as [|x l IH]; intros Hl Nd; cbn; [constructor|]. inversion Nd as [|? ? M1 M2]; subst. constructor.
      - intros Hin. apply in_map_iff in Hin as (y & E & Hy). apply (renaming_inj n p q) in E; [|exact Hp|apply Hl; now right|apply Hl; now left]. subst. contradiction.
      - apply IH; [|assumption]. intros y Hy. apply Hl. now right. }
    apply (knn_list_unique b n n l (map p l') (fun _ => true)).
    - constructor; auto; [intros x; apply J1|intros a c Hac Hc; apply S1; [exact Hac|lia]|]. intros x y Hx Hnx. exfalso. apply Hnx. now apply J1.
    - constructor.
      + now rewrite map_length.
      + apply NT; [intros x; apply J2|exact N2].
      + intros x Hx. apply in_map_iff in Hx as (y & <- & Hy). apply p_lt. now apply J2.
      + intros a c Hac Hc. rewrite (nth_indep (map p l') 0 (p 0)) by (rewrite map_length; lia). rewrite (nth_indep (map p l') 0 (p 0)) by (rewrite map_length; lia).
        rewrite !map_nth. unfold b. rewrite <- rank_alike; [apply S2; [exact Hac|lia]|exact Hi| |]; apply J2; apply nth_In; lia.
      + intros x y Hx Hnx. exfalso. apply Hnx. apply in_map_iff. exists (q x). destruct (Hp x Hx) as (_ & Q1 & _ & Q2). split; [exact Q2|]. now apply J2.
    - intros x y z _ _ _. unfold b, nearer. rewrite !(cl_lt _ _ _ CL). destruct (is_sim metric); generalize (toX (rank_value metric D (p i) x)) (toX (rank_value metric D (p i) y)) (toX (rank_value metric D (p i) z));
        intros [| |r1|] [| |r2|] [| |r3|]; cbn; try discriminate; auto; repeat destruct (Rlt_dec _ _); try discriminate; auto; lra.
    - intros x _. unfold b, nearer. rewrite !(cl_lt _ _ _ CL). destruct (is_sim metric); destruct (toX (rank_value metric D (p i) x)); cbn; auto; destruct (Rlt_dec r r); auto; lra.
    - discriminate.
    - intros x y Hx Hy Hne _ _. apply rank_tot; auto using p_lt.
    - unfold count_if. rewrite filter_true_in by reflexivity. now rewrite seq_length.
  Qed.
End Order.
