(** Proofs of C07-C11, C13. *)
From Coq Require Import String.
From Coq Require Import ZArith List Arith Lia Bool Reals Lra.
From Verif Require Import Py Num Arr S_Neighbors S_MP M_IO M_MPEmpiric P_F64 P_Hubness P_MPEmpiric.
Import ListNotations.
Local Open Scope nat_scope.

Definition size_ok (n : nat) : Prop := (Z.of_nat n <= 2 ^ 53)%Z.

Lemma check_square (r c : nat) : r = c ->
  check_distance_matrix_shape (Dense [r; c]) = Ok tt.
Proof.
  intros ->. unfold check_distance_matrix_shape. simpl. unfold dim0, dim1; simpl.
  now rewrite Nat.eqb_refl.
Qed.

Lemma mp_full_ok {V} {N : Num V} (D : arr2 V) metric t :
  nrow D = ncol D -> valid_metric metric = true -> test_ind_rejected t = false ->
  mp_empiric_full D metric t = Ok (mp_full_core metric D).
Proof.
  intros Hsq Hm Ht. unfold mp_empiric_full. rewrite check_square by assumption. simpl.
  rewrite (proj2 (check_metric_ok metric) Hm), Ht. reflexivity.
Qed.

Lemma mp_full_inv {V} {N : Num V} (D : arr2 V) metric t M :
  mp_empiric_full D metric t = Ok M ->
  nrow D = ncol D /\ valid_metric metric = true /\ test_ind_rejected t = false /\
  M = mp_full_core metric D.
Proof.
  unfold mp_empiric_full. intros H.
  apply bind_ok_inv in H as ([] & H1 & H). apply bind_ok_inv in H as ([] & H2 & H).
  apply bind_ok_inv in H as ([] & H3 & H). injection H as <-.
  split.
  - unfold check_distance_matrix_shape in H1. simpl in H1. unfold guard, dim0, dim1 in H1. simpl in H1.
    destruct (Nat.eqb_spec (nrow D) (ncol D)); [assumption|discriminate].
  - split; [now apply check_metric_ok|]. split; [|reflexivity].
    unfold guard in H3. destruct (test_ind_rejected t); [discriminate|reflexivity].
Qed.

(** every loop value is a float64 in [0,1] *)
Lemma mp_value_unit metric n dI dJ (d : f64) len : len <= n -> 0 < n -> size_ok n ->
  is_unit (mp_value metric n dI dJ d len).
Proof.
  intros Hl Hn Hb. unfold mp_value. destruct (is_sim metric).
  - apply frac_unit; auto. etransitivity; [apply count_if_le|assumption].
  - apply compl_correct. apply frac_unit; auto. etransitivity; [apply count_if_le|assumption].
Qed.

Lemma mp_full_at_f64 metric (D : arr2 f64) i j : size_ok (nrow D) ->
  i < nrow D -> j < nrow D ->
  at2 (mp_full_core metric D) i j =
  if i =? j then mp_self metric else mp_pair metric D (Nat.min i j) (Nat.max i j).
Proof.
  intros Hb Hi Hj. rewrite mp_full_at by assumption.
  destruct (Nat.eqb_spec i j) as [|Hne]; [reflexivity|].
  assert (U : forall a b, is_unit (mp_pair metric D a b)).
  { intros a b. apply mp_value_unit; auto. lia. }
  destruct (Nat.ltb_spec i j).
  - rewrite Nat.min_l, Nat.max_r by lia. apply unit_add0, U.
  - rewrite Nat.min_r, Nat.max_l by lia. apply unit_add0, U.
Qed.

Lemma mp_self_unit metric : is_unit (mp_self metric).
Proof. unfold mp_self. destruct (is_sim metric); [apply n1_unit|apply n0_unit]. Qed.

(** C07 *)
Lemma mp_dist_formula (D : arr2 f64) t M : size_ok (nrow D) ->
  mp_empiric_full D "distance" t = Ok M ->
  nrow M = nrow D /\ ncol M = nrow D /\
  (forall i, i < nrow D -> at2 M i i = n0) /\
  (forall i j, i < j -> j < nrow D ->
     at2 M i j = nsub n1 (ndiv (nofnat (farther_from_both D (nrow D) i j (at2 D j i)))
                               (nofnat (nrow D))) /\
     at2 M j i = at2 M i j).
Proof.
  intros Hb H. apply mp_full_inv in H as (Hsq & _ & _ & ->).
  destruct (mp_full_shape "distance" D) as (R & C).
  split; [assumption|]. split; [congruence|]. split.
  { intros i Hi. rewrite mp_full_at_f64 by assumption. now rewrite Nat.eqb_refl. }
  intros i j Hij Hj. split.
  - rewrite mp_full_at_f64 by (assumption || lia).
    replace (i =? j) with false by (symmetry; apply Nat.eqb_neq; lia).
    rewrite Nat.min_l, Nat.max_r by lia. apply (mp_pair_dist f64_cmp). lia.
  - rewrite !mp_full_at_f64 by (assumption || lia). now rewrite Nat.eqb_sym, Nat.min_comm, Nat.max_comm.
Qed.

Lemma mp_sim_formula (S : arr2 f64) t M : size_ok (nrow S) ->
  mp_empiric_full S "similarity" t = Ok M ->
  nrow M = nrow S /\ ncol M = nrow S /\
  (forall i, i < nrow S -> at2 M i i = n1) /\
  (forall i j, i < j -> j < nrow S ->
     (nlt (at2 S j i) ninf = true ->
      at2 M i j = ndiv (nofnat (at_most_similar_to_both S (nrow S) i j (at2 S j i)))
                       (nofnat (nrow S))) /\
     at2 M j i = at2 M i j).
Proof.
  intros Hb H. apply mp_full_inv in H as (Hsq & _ & _ & ->).
  destruct (mp_full_shape "similarity" S) as (R & C).
  split; [assumption|]. split; [congruence|]. split.
  { intros i Hi. rewrite mp_full_at_f64 by assumption. now rewrite Nat.eqb_refl. }
  intros i j Hij Hj. split.
  - intros Hfin. rewrite mp_full_at_f64 by (assumption || lia).
    replace (i =? j) with false by (symmetry; apply Nat.eqb_neq; lia).
    rewrite Nat.min_l, Nat.max_r by lia. apply (mp_pair_sim f64_cmp); [lia|assumption].
  - rewrite !mp_full_at_f64 by (assumption || lia). now rewrite Nat.eqb_sym, Nat.min_comm, Nat.max_comm.
Qed.

(** C08 *)
Lemma mp_range (D : arr2 f64) metric t M : size_ok (nrow D) ->
  mp_empiric_full D metric t = Ok M ->
  forall i j, i < nrow D -> j < nrow D ->
    nle n0 (at2 M i j) = true /\ nle (at2 M i j) n1 = true.
Proof.
  intros Hb H i j Hi Hj. apply mp_full_inv in H as (_ & _ & _ & ->).
  apply unit_bounds. rewrite mp_full_at_f64 by assumption.
  destruct (i =? j); [apply mp_self_unit|]. apply mp_value_unit; auto. lia.
Qed.

Lemma mp_dist_positive (D : arr2 f64) t M : size_ok (nrow D) ->
  mp_empiric_full D "distance" t = Ok M ->
  forall i j, i < nrow D -> j < nrow D -> i <> j -> nlt n0 (at2 M i j) = true.
Proof.
  intros Hb H i j Hi Hj Hne. apply mp_full_inv in H as (_ & _ & _ & ->).
  rewrite mp_full_at_f64 by assumption.
  apply Nat.eqb_neq in Hne as Hne'. rewrite Hne'.
  rewrite (mp_pair_dist f64_cmp) by lia. apply compl_frac_gt0; [|assumption].
  unfold farther_from_both.
  pose proof (count_if_three
    (fun x => nlt (at2 D (Nat.max i j) (Nat.min i j)) (at2 D (Nat.min i j) x) &&
              nlt (at2 D (Nat.max i j) (Nat.min i j)) (at2 D (Nat.max i j) x))
    (nrow D) (Nat.min i j) (Nat.max i j)). lia.
Qed.

Lemma mp_sim_below_one (S : arr2 f64) t M : size_ok (nrow S) ->
  mp_empiric_full S "similarity" t = Ok M ->
  (forall i j, i < j -> j < nrow S -> nlt (at2 S j i) ninf = true) ->
  forall i j, i < nrow S -> j < nrow S -> i <> j -> nlt (at2 M i j) n1 = true.
Proof.
  intros Hb H Hfin i j Hi Hj Hne. apply mp_full_inv in H as (_ & _ & _ & ->).
  rewrite mp_full_at_f64 by assumption.
  apply Nat.eqb_neq in Hne as Hne'. rewrite Hne'.
  rewrite (mp_pair_sim f64_cmp) by (try apply Hfin; lia).
  apply frac_lt1_nlt; [|assumption]. unfold at_most_similar_to_both.
  pose proof (count_if_three
    (fun x => nle (at2 S (Nat.min i j) x) (at2 S (Nat.max i j) (Nat.min i j)) &&
              nle (at2 S (Nat.max i j) x) (at2 S (Nat.max i j) (Nat.min i j)))
    (nrow S) (Nat.min i j) (Nat.max i j)). lia.
Qed.

Section Order.
  Context {V : Type} {N : Num V} {toX : V -> xr} (CL : CmpLaws V N toX).

  (** C09 *)
  Lemma mp_dist_order (D D' : arr2 V) : nrow D = nrow D' ->
    (forall i j a b, i < nrow D -> j < nrow D -> a < nrow D -> b < nrow D -> i <> j -> a <> b ->
       nlt (at2 D i j) (at2 D a b) = nlt (at2 D' i j) (at2 D' a b)) ->
    eq2 (mp_full_core "distance" D) (mp_full_core "distance" D').
  Proof.
    intros En Ho.
    destruct (mp_full_shape "distance" D) as (R & C), (mp_full_shape "distance" D') as (R' & C').
    split; [congruence|]. split; [congruence|]. rewrite R, C. intros i j Hi Hj.
    rewrite !mp_full_at by congruence.
    assert (P : forall i j, i < j -> j < nrow D ->
              mp_pair "distance" D i j = mp_pair "distance" D' i j).
    { intros a b Hab Hb. rewrite !(mp_pair_dist CL) by lia. rewrite <- En. do 3 f_equal.
      unfold farther_from_both. apply count_if_ext. intros x Hx.
      destruct (Nat.eqb_spec x a); [reflexivity|].
      destruct (Nat.eqb_spec x b); [reflexivity|]. simpl.
      rewrite (Ho b a a x), (Ho b a b x) by lia. reflexivity. }
    destruct (Nat.eqb_spec i j); [reflexivity|].
    destruct (Nat.ltb_spec i j); rewrite P by lia; reflexivity.
  Qed.

  Lemma mp_sim_order (S S' : arr2 V) : nrow S = nrow S' ->
    (forall i j a b, i < nrow S -> j < nrow S -> a < nrow S -> b < nrow S -> i <> j -> a <> b ->
       nle (at2 S i j) (at2 S a b) = nle (at2 S' i j) (at2 S' a b)) ->
    (forall i j, i < nrow S -> j < nrow S -> i <> j ->
       nlt (at2 S i j) ninf = true /\ nlt (at2 S' i j) ninf = true) ->
    eq2 (mp_full_core "similarity" S) (mp_full_core "similarity" S').
  Proof.
    intros En Ho Hf.
    destruct (mp_full_shape "similarity" S) as (R & C), (mp_full_shape "similarity" S') as (R' & C').
    split; [congruence|]. split; [congruence|]. rewrite R, C. intros i j Hi Hj.
    rewrite !mp_full_at by congruence.
    assert (P : forall i j, i < j -> j < nrow S ->
              mp_pair "similarity" S i j = mp_pair "similarity" S' i j).
    { intros a b Hab Hb. rewrite !(mp_pair_sim CL) by (try lia; apply Hf; lia).
      rewrite <- En. do 2 f_equal.
      unfold at_most_similar_to_both. apply count_if_ext. intros x Hx.
      destruct (Nat.eqb_spec x a); [reflexivity|].
      destruct (Nat.eqb_spec x b); [reflexivity|]. simpl.
      rewrite (Ho a x b a), (Ho b x b a) by lia. reflexivity. }
    destruct (Nat.eqb_spec i j); [reflexivity|].
    destruct (Nat.ltb_spec i j); rewrite P by lia; reflexivity.
  Qed.

  (** C10, count level *)
  Lemma count_dual (D S : arr2 V) n i j : i < n -> j < n -> i <> j ->
    (forall i j a b, i < n -> j < n -> a < n -> b < n -> i <> j -> a <> b ->
       nlt (at2 D i j) (at2 D a b) = nlt (at2 S a b) (at2 S i j)) ->
    farther_from_both D n i j (at2 D j i) <= at_most_similar_to_both S n i j (at2 S j i) /\
    ((forall x, x < n -> x <> i -> x <> j ->
        neq (at2 S i x) (at2 S j i) = false /\ neq (at2 S j x) (at2 S j i) = false) ->
     farther_from_both D n i j (at2 D j i) = at_most_similar_to_both S n i j (at2 S j i)).
  Proof.
    intros Hi Hj Hne Ho. unfold farther_from_both, at_most_similar_to_both. split.
    - apply count_if_mono. intros x Hx.
      destruct (Nat.eqb_spec x i); [discriminate|]. destruct (Nat.eqb_spec x j); [discriminate|].
      simpl. rewrite (Ho j i i x), (Ho j i j x) by lia. intros H. apply andb_prop in H as (H1 & H2).
      rewrite !(nle_lt_eq CL), H1, H2. reflexivity.
    - intros Ht. apply count_if_ext. intros x Hx.
      destruct (Nat.eqb_spec x i); [reflexivity|]. destruct (Nat.eqb_spec x j); [reflexivity|].
      simpl. rewrite (Ho j i i x), (Ho j i j x) by lia.
      destruct (Ht x Hx n0 n1) as (E1 & E2). rewrite !(nle_lt_eq CL), E1, E2, !orb_false_r. reflexivity.
  Qed.
End Order.

Lemma mp_dual (D S : arr2 f64) t t' MD MS : size_ok (nrow D) -> nrow D = nrow S ->
  mp_empiric_full D "distance" t = Ok MD -> mp_empiric_full S "similarity" t' = Ok MS ->
  (forall i j a b, i < nrow D -> j < nrow D -> a < nrow D -> b < nrow D -> i <> j -> a <> b ->
     nlt (at2 D i j) (at2 D a b) = nlt (at2 S a b) (at2 S i j)) ->
  (forall i j, i < nrow D -> j < nrow D -> i <> j -> nlt (at2 S i j) ninf = true) ->
  forall i j, i < nrow D -> j < nrow D -> i <> j ->
    nle (nsub n1 (at2 MS i j)) (at2 MD i j) = true /\
    ((forall a b x, a < nrow D -> b < nrow D -> x < nrow D -> a <> b -> x <> a -> x <> b ->
        neq (at2 S a x) (at2 S b a) = false /\ neq (at2 S b x) (at2 S b a) = false) ->
     at2 MD i j = nsub n1 (at2 MS i j)).
Proof.
  intros Hb En HD HS Ho Hf i j Hi Hj Hne.
  apply mp_full_inv in HD as (_ & _ & _ & ->). apply mp_full_inv in HS as (_ & _ & _ & ->).
  rewrite !mp_full_at_f64 by (try assumption; rewrite <- En; assumption).
  apply Nat.eqb_neq in Hne as Hne'. rewrite Hne'.
  set (a := Nat.min i j) in *. set (b := Nat.max i j) in *.
  assert (Hab : a < b /\ b < nrow D) by lia.
  rewrite (mp_pair_dist f64_cmp) by lia.
  rewrite (mp_pair_sim f64_cmp) by (try lia; apply Hf; lia).
  rewrite <- En.
  destruct (count_dual f64_cmp D S (nrow D) a b) as (Hle & Heq); try lia; [exact Ho|].
  assert (Hc : at_most_similar_to_both S (nrow D) a b (at2 S b a) <= nrow D) by apply count_if_le.
  split.
  - apply compl_anti; try (apply frac_unit; try assumption; lia). apply frac_mono; auto; lia.
  - intros Ht. rewrite Heq; [reflexivity|]. intros x Hx H1 H2. apply Ht; lia.
Qed.

(** C13 *)
Lemma test_ind_ignored {V} {N : Num V} (D : arr2 V) metric l :
  (~ In (-1)%Z l -> mp_empiric_full D metric (TInts l) = mp_empiric_full D metric TNone) /\
  (nrow D = ncol D -> valid_metric metric = true ->
     (In (-1)%Z l -> mp_empiric_full D metric (TInts l) = Raise NotImplementedError)).
Proof.
  split.
  - intros H. unfold mp_empiric_full. replace (test_ind_rejected (TInts l)) with false; [reflexivity|].
    symmetry. simpl. apply negb_false_iff. apply forallb_forall. intros z Hz.
    apply negb_true_iff. apply Z.eqb_neq. intros E. apply H. replace (-1)%Z with z by lia. assumption.
  - intros Hsq Hm H. unfold mp_empiric_full. rewrite check_square by assumption. cbn [bind].
    rewrite (proj2 (check_metric_ok metric) Hm). cbn [bind].
    replace (test_ind_rejected (TInts l)) with true; [reflexivity|].
    symmetry. simpl. apply negb_true_iff.
    destruct (forallb _ l) eqn:E; [|reflexivity].
    rewrite forallb_forall in E. specialize (E _ H). discriminate.
Qed.

Lemma test_mask {V} {N : Num V} (D : arr2 V) metric l :
  nrow D = ncol D -> valid_metric metric = true ->
  mp_empiric_full D metric (TBools l) =
    (if existsb (fun b => b) l then Raise NotImplementedError
     else mp_empiric_full D metric TNone).
Proof.
  intros Hsq Hm. unfold mp_empiric_full. rewrite check_square by assumption. cbn [bind].
  rewrite (proj2 (check_metric_ok metric) Hm). cbn [bind].
  replace (test_ind_rejected (TBools l)) with (existsb (fun b => b) l).
  - destruct (existsb (fun b => b) l); reflexivity.
  - simpl. induction l as [|[|] l IH]; simpl; auto.
Qed.

(* ------------------------------------------------------------------ *)
(** ** sample variant *)
Section Sample.
  Context {V : Type} {N : Num V} {toX : V -> xr} (CL : CmpLaws V N toX).

  Lemma set_self_cells_at idx v (D : arr2 V) a b :
    at2 (set_self_cells idx v D) a b
    = if (b <? length idx) && (a =? nth b idx 0) then v else at2 D a b.
  Proof.
    unfold set_self_cells. induction (length idx) as [|k IH].
    - rewrite for_0. reflexivity.
    - rewrite for_S. cbn [at2 set2].
      rewrite IH. destruct (Nat.eqb_spec b k) as [E|E].
      + subst b. replace (k <? S k) with true by (symmetry; apply Nat.ltb_lt; lia).
        rewrite Nat.ltb_irrefl. rewrite andb_true_r. reflexivity.
      + rewrite andb_false_r. replace (b <? S k) with (b <? k); [reflexivity|].
        destruct (Nat.ltb_spec b k), (Nat.ltb_spec b (S k)); lia || reflexivity.
  Qed.

  Lemma set_self_cells_shape idx v (D : arr2 V) :
    nrow (set_self_cells idx v D) = nrow D /\ ncol (set_self_cells idx v D) = ncol D.
  Proof. apply for_shape. intros; split; reflexivity. Qed.

  Lemma sample_loop_at metric idx rows (D M : arr2 V) a b : b < ncol D ->
    at2 (mp_sample_loop metric idx rows D M) a b =
    if existsb (Nat.eqb a) rows
    then mp_value metric (ncol D) (at2 D a) (at2 D (nth b idx 0)) (at2 D a b) (ncol D)
    else at2 M a b.
  Proof.
    intros Hb. unfold mp_sample_loop. revert M.
    induction rows as [|i rows IH]; intros M; [reflexivity|].
    cbn [fold_left existsb]. rewrite IH. destruct (existsb (Nat.eqb a) rows); [now rewrite orb_true_r|].
    rewrite orb_false_r. cbn [at2 setrow]. destruct (Nat.eqb_spec a i) as [E|E]; [|reflexivity].
    subst. simpl. replace (b <? ncol D) with true by (symmetry; apply Nat.ltb_lt; lia). reflexivity.
  Qed.

  Lemma sample_loop_shape metric idx rows (D M : arr2 V) :
    nrow (mp_sample_loop metric idx rows D M) = nrow M /\
    ncol (mp_sample_loop metric idx rows D M) = ncol M.
  Proof.
    unfold mp_sample_loop. revert M. induction rows as [|i rows IH]; intros M; [split; reflexivity|].
    cbn [fold_left]. destruct (IH (setrow M i 0 (ncol D)
       (fun j => mp_value metric (ncol D) (at2 D i) (at2 D (nth j idx 0)) (at2 D i j) (ncol D))))
      as (-> & ->). split; reflexivity.
  Qed.

  Lemma existsb_ge_false n l : existsb (fun s => n <=? s) l = false <-> forall s, In s l -> s < n.
  Proof.
    split.
    - intros H s Hs. destruct (Nat.lt_ge_cases s n) as [|Hge]; [assumption|].
      assert (existsb (fun s => n <=? s) l = true); [|congruence].
      apply existsb_exists. exists s. split; [assumption|]. now apply Nat.leb_le.
    - intros H. destruct (existsb _ l) eqn:E; [|reflexivity].
      apply existsb_exists in E as (s & Hs & E). apply Nat.leb_le in E. specialize (H s Hs). lia.
  Qed.

  (** the value of a cell (i, j) with idx_j <> i *)
  Definition sample_value (metric : string) (D : arr2 V) (idx : list nat) (i j : nat) : V :=
    let s := ncol D in
    let third x := negb (nth x idx 0 =? i) && negb (nth x idx 0 =? nth j idx 0) in
    let d := at2 D i j in
    if is_sim metric
    then ndiv (nofnat (count_if (fun x => third x &&
            (nle (at2 D i x) d && nle (at2 D (nth j idx 0) x) d)) s)) (nofnat s)
    else nsub n1 (ndiv (nofnat (count_if (fun x => third x &&
            (nlt d (at2 D i x) && nlt d (at2 D (nth j idx 0) x))) s)) (nofnat s)).

  Lemma sample_value_eq metric (D : arr2 V) idx i j :
    valid_metric metric = true ->
    length idx = ncol D -> j < ncol D -> nth j idx 0 <> i ->
    (is_sim metric = true -> nlt (at2 D i j) ninf = true) ->
    let E := set_self_cells idx (mp_exclude metric) D in
    mp_value metric (ncol D) (at2 E i) (at2 E (nth j idx 0)) (at2 E i j) (ncol D)
    = sample_value metric D idx i j.
  Proof.
    intros Hv Hl Hj Hne Hfin E. unfold mp_value, sample_value.
    assert (Ed : at2 E i j = at2 D i j).
    { unfold E. rewrite set_self_cells_at.
      replace (i =? nth j idx 0) with false by (symmetry; apply Nat.eqb_neq; lia).
      now rewrite andb_false_r. }
    rewrite Ed.
    assert (Ex : forall a x, x < ncol D ->
       at2 E a x = if nth x idx 0 =? a then mp_exclude metric else at2 D a x).
    { intros a x Hx. unfold E. rewrite set_self_cells_at, Hl.
      replace (x <? ncol D) with true by (symmetry; apply Nat.ltb_lt; lia).
      now rewrite Nat.eqb_sym. }
    destruct (is_sim metric) eqn:Es.
    - do 2 f_equal. apply count_if_ext. intros x Hx. rewrite !Ex by assumption.
      assert (Hinf : nle (mp_exclude metric) (at2 D i j) = false).
      { specialize (Hfin eq_refl). destruct (nlt_nan_r CL _ _ Hfin) as (H1 & H2).
        unfold mp_exclude. rewrite Es.
        rewrite (nle_not_lt CL) by assumption. now rewrite Hfin. }
      destruct (nth x idx 0 =? i), (nth x idx 0 =? nth j idx 0); simpl;
        rewrite ?Hinf, ?andb_false_r; reflexivity.
    - do 3 f_equal. apply count_if_ext. intros x Hx. rewrite !Ex by assumption.
      assert (Hinf : nlt (at2 D i j) (mp_exclude metric) = false).
      { unfold mp_exclude. rewrite Es. apply (nlt_ninf_false CL). }
      destruct (nth x idx 0 =? i), (nth x idx 0 =? nth j idx 0); simpl;
        rewrite ?Hinf, ?andb_false_r; reflexivity.
  Qed.

  Lemma mp_sample_inv (D : arr2 V) idx metric test M :
    mp_empiric_sample D idx metric test = Ok M ->
    ncol D <= nrow D /\ length idx = ncol D /\ valid_metric metric = true /\
    (forall s, In s idx -> s < nrow D) /\
    match test with None => True | Some t => forall s, In s t -> s < nrow D end.
  Proof.
    unfold mp_empiric_sample. intros H.
    apply bind_ok_inv in H as ([] & H1 & H). apply bind_ok_inv in H as ([] & H2 & H).
    apply bind_ok_inv in H as ([] & H3 & H). apply bind_ok_inv in H as ([] & H4 & _).
    unfold check_sample_shape_fits in H1. simpl in H1. unfold guard, dim0, dim1, size_of in H1.
    simpl in H1.
    destruct (Nat.ltb_spec (nrow D) (ncol D)); [discriminate|]. simpl in H1.
    rewrite Nat.mul_1_r in H1.
    destruct (Nat.eqb_spec (ncol D) (length idx)); [|discriminate].
    split; [assumption|]. split; [auto|]. split; [now apply check_metric_ok|].
    unfold guard in H3, H4.
    destruct (existsb (fun s => nrow D <=? s) idx) eqn:E3; [discriminate|].
    split; [now apply existsb_ge_false|].
    destruct test as [t|]; [|exact I].
    destruct (existsb (fun s => nrow D <=? s) t) eqn:E4; [discriminate|].
    now apply existsb_ge_false.
  Qed.

  Lemma mp_sample_spec (D : arr2 V) idx metric test M :
    mp_empiric_sample D idx metric test = Ok M ->
    let rowof a := match test with None => a | Some t => nth a t 0 end in
    nrow M = match test with None => nrow D | Some t => length t end /\
    ncol M = ncol D /\
    forall a j, a < nrow M -> j < ncol D ->
      (nth j idx 0 = rowof a -> at2 M a j = mp_self metric) /\
      (nth j idx 0 <> rowof a -> (is_sim metric = true -> nlt (at2 D (rowof a) j) ninf = true) ->
       at2 M a j = sample_value metric D idx (rowof a) j).
  Proof.
    intros H. pose proof (mp_sample_inv _ _ _ _ _ H) as (Hn & Hl & Hv & Hi & Ht).
    intros rowof.
    set (rows := match test with None => seq 0 (nrow D) | Some t => t end).
    set (D1 := set_self_cells idx (mp_exclude metric) D).
    set (M1 := set_self_cells idx (mp_self metric)
                 (mp_sample_loop metric idx rows D1 (full2 (nrow D) (ncol D) nnan))).
    assert (EM : M = match test with None => M1
       | Some t => Arr2 (length t) (ncol D) (fun a b => at2 M1 (nth a t 0) b) end).
    { unfold mp_empiric_sample in H.
      apply bind_ok_inv in H as ([] & H1 & H). apply bind_ok_inv in H as ([] & H2 & H).
      apply bind_ok_inv in H as ([] & H3 & H). apply bind_ok_inv in H as ([] & H4 & H).
      destruct test; injection H as <-; reflexivity. }
    destruct (set_self_cells_shape idx (mp_exclude metric) D) as (R1 & C1). fold D1 in R1, C1.
    assert (S1 : nrow M1 = nrow D /\ ncol M1 = ncol D).
    { unfold M1. destruct (set_self_cells_shape idx (mp_self metric)
        (mp_sample_loop metric idx rows D1 (full2 (nrow D) (ncol D) nnan))) as (-> & ->).
      destruct (sample_loop_shape metric idx rows D1 (full2 (nrow D) (ncol D) nnan)) as (-> & ->).
      split; reflexivity. }
    assert (A1 : forall i j, In i rows -> j < ncol D ->
      (nth j idx 0 = i -> at2 M1 i j = mp_self metric) /\
      (nth j idx 0 <> i -> (is_sim metric = true -> nlt (at2 D i j) ninf = true) ->
       at2 M1 i j = sample_value metric D idx i j)).
    { intros i j Hi' Hj. unfold M1. rewrite set_self_cells_at, Hl.
      replace (j <? ncol D) with true by (symmetry; apply Nat.ltb_lt; lia). simpl.
      split.
      - intros <-. now rewrite Nat.eqb_refl.
      - intros Hne Hfin. replace (i =? nth j idx 0) with false by (symmetry; apply Nat.eqb_neq; lia).
        rewrite sample_loop_at by (rewrite C1; assumption).
        replace (existsb (Nat.eqb i) rows) with true.
        + rewrite C1. apply sample_value_eq; auto.
        + symmetry. apply existsb_exists. exists i. split; [assumption|apply Nat.eqb_refl]. }
    destruct test as [t|]; subst M.
    - split; [reflexivity|]. split; [reflexivity|]. intros a j Ha Hj. cbn [at2] in *.
      apply A1; [|assumption]. apply nth_In. exact Ha.
    - destruct S1 as (S1 & S2). split; [assumption|]. split; [assumption|].
      intros a j Ha Hj. apply A1; [|assumption].
      assert (a < nrow D) by (rewrite <- S1; exact Ha). apply in_seq. cbv beta iota delta [rowof]. lia.
  Qed.

  (** C11: sampling everything equals the full computation *)
  Lemma sample_all_pair metric (D : arr2 V) i j : valid_metric metric = true -> symmetric D ->
    i < nrow D -> j < nrow D -> i <> j ->
    (is_sim metric = true -> nlt (at2 D i j) ninf = true) ->
    sample_value metric D (seq 0 (nrow D)) i j
    = mp_pair metric D (Nat.min i j) (Nat.max i j).
  Proof.
    intros Hv (Hsq & Hs) Hi Hj Hne Hfin.
    assert (Ed : at2 D (Nat.max i j) (Nat.min i j) = at2 D i j).
    { destruct (Nat.lt_ge_cases i j).
      - rewrite Nat.max_r, Nat.min_l by lia. now apply Hs.
      - rewrite Nat.max_l, Nat.min_r by lia. reflexivity. }
    unfold sample_value. rewrite <- Hsq. rewrite seq_nth by assumption. simpl (0 + j).
    destruct (valid_metric_cases metric Hv) as [(-> & Hd & Es)|(-> & Hd & Es)]; rewrite Es.
    - rewrite (mp_pair_dist CL) by lia. do 3 f_equal. unfold farther_from_both. rewrite Ed.
      apply count_if_ext. intros x Hx. rewrite seq_nth by assumption. simpl (0 + x).
      destruct (Nat.lt_ge_cases i j).
      + rewrite Nat.max_r, Nat.min_l by lia. reflexivity.
      + rewrite Nat.max_l, Nat.min_r by lia.
        rewrite (andb_comm (negb (x =? j))), (andb_comm (nlt (at2 D i j) (at2 D j x))). reflexivity.
    - rewrite (mp_pair_sim CL) by (try lia; rewrite Ed; auto).
      do 2 f_equal. unfold at_most_similar_to_both. rewrite Ed.
      apply count_if_ext. intros x Hx. rewrite seq_nth by assumption. simpl (0 + x).
      destruct (Nat.lt_ge_cases i j).
      + rewrite Nat.max_r, Nat.min_l by lia. reflexivity.
      + rewrite Nat.max_l, Nat.min_r by lia.
        rewrite (andb_comm (negb (x =? j))), (andb_comm (nle (at2 D j x) (at2 D i j))). reflexivity.
  Qed.
End Sample.

Lemma mp_sample_total {V} {N : Num V} (D : arr2 V) idx metric test :
  ncol D <= nrow D -> length idx = ncol D -> valid_metric metric = true ->
  (forall s, In s idx -> s < nrow D) ->
  match test with None => True | Some t => forall s, In s t -> s < nrow D end ->
  exists M, mp_empiric_sample D idx metric test = Ok M.
Proof.
  intros Hn Hl Hv Hi Ht. unfold mp_empiric_sample.
  replace (check_sample_shape_fits (Dense [nrow D; ncol D]) (Dense [length idx])) with (Ok tt).
  2:{ unfold check_sample_shape_fits, guard, dim0, dim1, size_of. simpl.
      replace (nrow D <? ncol D) with false by (symmetry; apply Nat.ltb_ge; lia).
      rewrite Nat.mul_1_r, Hl, Nat.eqb_refl. reflexivity. }
  cbn [bind]. rewrite (proj2 (check_metric_ok metric) Hv). cbn [bind].
  rewrite (proj2 (existsb_ge_false (nrow D) idx) Hi). cbn [guard bind].
  destruct test as [t|].
  - rewrite (proj2 (existsb_ge_false (nrow D) t) Ht). cbn [guard bind]. eauto.
  - cbn [guard bind]. eauto.
Qed.

Lemma mp_sample_all_eq_full (D : arr2 f64) metric M :
  size_ok (nrow D) -> symmetric D -> valid_metric metric = true ->
  (is_sim metric = true -> forall i j, i < nrow D -> j < nrow D -> i <> j ->
     nlt (at2 D i j) ninf = true) ->
  mp_empiric_full D metric TNone = Ok M ->
  exists M', mp_empiric_sample D (seq 0 (nrow D)) metric None = Ok M' /\ eq2 M' M.
Proof.
  intros Hb Hs Hv Hfin H.
  destruct Hs as (Hsq & Hs).
  destruct (mp_sample_total D (seq 0 (nrow D)) metric None) as (M' & HM').
  { lia. } { rewrite seq_length; lia. } { assumption. }
  { intros s Hs'. apply in_seq in Hs'. lia. } { exact I. }
  exists M'. split; [assumption|].
  apply mp_full_inv in H as (_ & _ & _ & ->).
  destruct (mp_full_shape metric D) as (R & C).
  destruct (mp_sample_spec f64_cmp D _ metric None M' HM') as (R' & C' & A).
  split; [congruence|]. split; [congruence|].
  intros i j Hi Hj. rewrite R' in Hi. rewrite C' in Hj.
  rewrite mp_full_at_f64 by (assumption || lia).
  destruct (A i j) as (A1 & A2); [lia|lia|].
  rewrite seq_nth in A1, A2 by lia. simpl in A1, A2.
  destruct (Nat.eqb_spec i j) as [E|E].
  - apply A1. auto.
  - rewrite A2; auto.
    + apply (sample_all_pair f64_cmp); auto; try lia. now split. intros; apply Hfin; auto; lia.
    + intros; apply Hfin; auto; lia.
Qed.
