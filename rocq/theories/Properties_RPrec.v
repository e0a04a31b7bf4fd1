(** Properties C100-C105: knn_classification.py r_precision. *)
From Coq Require Import String.
From Coq Require Import ZArith Reals Lra List Arith Lia Bool Permutation.
From Flocq Require Import BinarySingleNaN.
From Verif Require Import Py Num NumT Arr Sort S_Neighbors M_IO M_GK M_SNN M_KNN M_MPEmpiric M_SparseKNN.
From Verif Require Import S_SparseKNN P_Neighbors P_KNN P_GK2 P_F64 P_F1 P_Vec P_SparseKNN P_SparseKNN2 P_SparseKNN3 P_SparseKNN4 P_SparseKNN5.
Import ListNotations.
Local Open Scope nat_scope.

(** In all statements [argpart] is any function that meets numpy's contract for
    argpartition, [rp i] and [sh i j] are the random permutations drawn while
    object i is processed, whatever worker process that is, and [vsum] adds
    floating point numbers. *)

(** the pairs of objects the measure is about exist: two objects share a label *)
Definition two_share (lab : list Z) : Prop :=
  exists i j, i < length lab /\ j < length lab /\ j <> i /\ nth j lab 0%Z = nth i lab 0%Z.

(** a square sparse similarity matrix without NaN and stored zeros in which
    every object is most similar to itself *)
Record similarities {V} {N : Num V} (S : smat V) (n : nat) : Prop := {
  si_row : srow S = n;
  si_col : scol S = n;
  si_clean : forall i, i < n -> clean_row S i;
  si_self : forall i, i < n -> self_first S i
}.

Lemma share_mates lab : two_share lab -> mates lab.
Proof. intros (i & j & Hi & Hj & Hne & E). exists i. split; [exact Hi|]. apply relevant_pos; eauto. Qed.

Lemma self_cols {V} {N : Num V} (S : smat V) i : self_first S i -> sp_cols S i <> [].
Proof. intros (Hl & _) E. apply stored_linked in Hl. rewrite E in Hl. contradiction. Qed.

(** ** C100: what the precision of an object is *)
Theorem C100_value_per_object :
  forall argpart, argpart_ok argpart ->
  forall rp, (forall i l, Permutation (rp i l) l) ->
  forall sh, (forall (i j : nat) l, Permutation (sh i j l) l) ->
  forall vsum (S : smat f64) (lab : list Z) (yp : nat),
    similarities S (length lab) -> two_share lab ->
    exists out, r_precision argpart rp sh vsum false S lab "similarity" yp = Ok out /\
      length (rp_item out) = length lab /\ length (rp_pred out) = length lab /\
      forall i, i < length lab ->
        (exists nn, top_list (sval S i) (fun x => linked S i x /\ x <> i)
                      (Nat.min (relevant lab i) (n_linked S i)) nn /\
           nth i (rp_item out) nnan =
             (if hits lab i nn =? 0 then n0
              else ndiv (nofnat (hits lab i nn)) (nofnat (relevant lab i)))) /\
        nth (nth i (rp_true out) 0) (rp_relevant out) 0%Z = Z.of_nat (relevant lab i).
Proof.
  intros argpart AP rp RP sh SH vsum S lab yp [HR HC Hcl Hsf] Hm.
  destruct (rprec_run f64_cmp argpart AP rp RP sh SH vsum S lab yp HR HC Hcl) as (W & NN & NN' & Hs & ->).
  { intros i Hi _. now apply self_cols, Hsf. } { now apply share_mates. }
  eexists. split; [reflexivity|]. cbn [rp_item rp_pred rp_true rp_relevant]. rewrite !map_length, !seq_length.
  split; [reflexivity|]. split; [reflexivity|]. intros i Hi. split; [|now apply rel_relevant].
  destruct (Hs i Hi) as (A & B & C & _). exists (NN i). split.
  - destruct (Nat.eq_dec (relevant lab i) 0) as [E|E].
    + rewrite (A E), E. simpl. constructor; simpl; auto; try constructor; try contradiction. discriminate.
    + destruct (B E) as (Hl & Hmx & T). rewrite (self_first_max S i (W i) (Hsf i Hi) Hl Hmx) in T.
      rewrite (n_linked_cols S i (proj1 (Hsf i Hi))) in T. simpl in T. rewrite Nat.sub_0_r in T. exact T.
  - rewrite nth_map_seq by exact Hi. unfold item_val. now rewrite (hits_perm lab i _ _ C).
Qed.

(** every precision and both averages lie in [0, 1] in double precision, in
    whatever order the sums are associated *)
Lemma item_unit lab i nn : i < length lab -> length nn <= relevant lab i -> (Z.of_nat (length lab) <= 2 ^ 53)%Z ->
  is_unit (item_val (V:=f64) lab i nn).
Proof.
  intros Hi Hl Hb. unfold item_val. destruct (Nat.eqb_spec (hits lab i nn) 0) as [E|E]; [apply n0_unit|].
  assert (relevant lab i <= length lab).
  { unfold relevant. pose proof (count_if_le (fun x => negb (x =? i) && (nth x lab 0 =? nth i lab 0)%Z) (length lab)).
    unfold count_if in H. exact H. }
  pose proof (hits_le lab i nn). apply frac_unit; lia.
Qed.

Lemma fin_unit (x : f64) : is_finite x = true /\ (0 <= B2R x <= 1)%R -> nle n0 x = true /\ nle x n1 = true.
Proof.
  intros (F & B). destruct n0_f64 as (E0 & F0). destruct n1_f64 as (E1 & F1).
  split; apply nle_B2R; auto; [rewrite E0|rewrite E1]; lra.
Qed.

Lemma mean_unit vsum (g : nat -> f64) n : (forall l, np_sum l (vsum l)) -> 0 < n -> (Z.of_nat n <= 2 ^ 53)%Z ->
  (forall i, i < n -> is_unit (g i)) ->
  is_finite (ndiv (vsum (map g (seq 0 n))) (nofnat n)) = true /\ (0 <= B2R (ndiv (vsum (map g (seq 0 n))) (nofnat n)) <= 1)%R.
Proof.
  intros VS Hn Hb U.
  destruct (np_sum_range _ _ (VS (map g (seq 0 n))) (map (fun _ => 1%nat) (seq 0 n))) as (F & B).
  - now rewrite !map_length.
  - rewrite sum_nat_const, seq_length. lia.
  - intros i Hi. rewrite map_length, seq_length in Hi. rewrite !nth_map_seq by exact Hi.
    destruct (U i Hi) as (F & _ & B). split; [exact F|]. change (IZR (Z.of_nat 1)) with 1%R. exact B.
  - rewrite sum_nat_const, seq_length, Nat.mul_1_r in B. unfold nofnat. apply quot_unit; auto. lia.
Qed.

Lemma wmean_unit vsum (g : nat -> f64) (w : nat -> nat) n : (forall l, np_sum l (vsum l)) ->
  0 < sum_nat (map w (seq 0 n)) -> (Z.of_nat (sum_nat (map w (seq 0 n))) <= 2 ^ 53)%Z ->
  (forall i, i < n -> is_unit (g i)) ->
  let q := ndiv (vsum (map (fun i => nmul (g i) (nofnat (w i))) (seq 0 n))) (nofnat (sum_nat (map w (seq 0 n)))) in
  is_finite q = true /\ (0 <= B2R q <= 1)%R.
Proof.
  intros VS Hn Hb U q. unfold q.
  destruct (np_sum_range _ _ (VS (map (fun i => nmul (g i) (nofnat (w i))) (seq 0 n))) (map w (seq 0 n))) as (F & B).
  - now rewrite !map_length.
  - exact Hb.
  - intros i Hi. rewrite map_length, seq_length in Hi. rewrite !nth_map_seq by exact Hi.
    destruct (U i Hi) as (Fg & _ & Bg).
    assert (Hw : (Z.of_nat (w i) <= 2 ^ 53)%Z).
    { pose proof (sum_nat_ge w (seq 0 n) i ltac:(apply in_seq; lia)). lia. }
    destruct (f64_ofZ_exact (Z.of_nat (w i))) as (Ew & Fw); [lia|].
    assert (Pw : (0 <= IZR (Z.of_nat (w i)))%R) by (apply IZR_le; lia).
    unfold nofnat. change (nofZ (Z.of_nat (w i))) with (f64_ofZ (Z.of_nat (w i))).
    destruct (nn_below (B2R (g i) * IZR (Z.of_nat (w i))) (Z.of_nat (w i))) as (R & A).
    + split; [apply Rmult_le_pos; lra|].
      rewrite <- (Rmult_1_l (IZR (Z.of_nat (w i)))) at 2. apply Rmult_le_compat_r; lra.
    + lia.
    + destruct (f_mul (g i) (f64_ofZ (Z.of_nat (w i)))) as (F & ->); auto.
      * now rewrite Ew.
      * rewrite Ew. auto.
  - unfold nofnat. apply quot_unit; auto. lia.
Qed.

Theorem C100_values_in_unit_interval :
  forall argpart, argpart_ok argpart ->
  forall rp, (forall i l, Permutation (rp i l) l) ->
  forall sh, (forall (i j : nat) l, Permutation (sh i j l) l) ->
  forall vsum, (forall l, np_sum l (vsum l)) ->
  forall (S : smat f64) (lab : list Z) (yp : nat),
    similarities S (length lab) -> two_share lab ->
    (Z.of_nat (sum_nat (map (relevant lab) (seq 0 (length lab)))) <= 2 ^ 53)%Z ->
    (Z.of_nat (length lab) <= 2 ^ 53)%Z ->
    exists out, r_precision argpart rp sh vsum false S lab "similarity" yp = Ok out /\
      (forall i, i < length lab -> nle n0 (nth i (rp_item out) nnan) = true /\ nle (nth i (rp_item out) nnan) n1 = true) /\
      nle n0 (rp_macro out) = true /\ nle (rp_macro out) n1 = true /\
      nle n0 (rp_weighted out) = true /\ nle (rp_weighted out) n1 = true.
Proof.
  intros argpart AP rp RP sh SH vsum VS S lab yp [HR HC Hcl Hsf] Hm Hb1 Hb2.
  destruct (rprec_run f64_cmp argpart AP rp RP sh SH vsum S lab yp HR HC Hcl) as (W & NN & NN' & Hs & ->).
  { intros i Hi _. now apply self_cols, Hsf. } { now apply share_mates. }
  eexists. split; [reflexivity|]. cbn [rp_item rp_macro rp_weighted].
  assert (U : forall i, i < length lab -> is_unit (item_val (V:=f64) lab i (NN' i))).
  { intros i Hi. apply item_unit; auto. destruct (Hs i Hi) as (A & B & C & _). rewrite (Permutation_length C).
    destruct (Nat.eq_dec (relevant lab i) 0) as [E|E]; [rewrite (A E); simpl; lia|].
    destruct (B E) as (_ & _ & T). rewrite (tl_len _ _ _ _ T). lia. }
  assert (Hpos : 0 < sum_nat (map (relevant lab) (seq 0 (length lab))) /\ 0 < length lab).
  { destruct (share_mates lab Hm) as (i0 & Hi0 & Hr).
    pose proof (sum_nat_ge (relevant lab) (seq 0 (length lab)) i0 ltac:(apply in_seq; lia)). lia. }
  split; [|split; [|split; [|split]]].
  - intros i Hi. rewrite nth_map_seq by exact Hi. now apply unit_bounds, U.
  - now apply fin_unit, mean_unit.
  - now apply fin_unit, mean_unit.
  - now apply fin_unit, wmean_unit.
  - now apply fin_unit, wmean_unit.
Qed.

(** ** C101: random draws, number of jobs, schedule *)
Lemma item_val_hits lab i nn nn' : hits lab i nn = hits lab i nn' -> item_val (V:=f64) lab i nn = item_val lab i nn'.
Proof. unfold item_val. now intros ->. Qed.

Theorem C101_deterministic_without_ties :
  forall argpart argpart', argpart_ok argpart -> argpart_ok argpart' ->
  forall rp rp', (forall i l, Permutation (rp i l) l) -> (forall i l, Permutation (rp' i l) l) ->
  forall sh sh', (forall (i j : nat) l, Permutation (sh i j l) l) -> (forall (i j : nat) l, Permutation (sh' i j l) l) ->
  forall vsum (S : smat f64) (lab : list Z) (yp yp' : nat),
    similarities S (length lab) -> two_share lab ->
    (forall i x y, i < length lab -> linked S i x -> linked S i y -> x <> y ->
       nlt (sval S i x) (sval S i y) = true \/ nlt (sval S i y) (sval S i x) = true) ->
    exists out out',
      r_precision argpart rp sh vsum false S lab "similarity" yp = Ok out /\
      r_precision argpart' rp' sh' vsum false S lab "similarity" yp' = Ok out' /\
      rp_item out = rp_item out' /\ rp_macro out = rp_macro out' /\ rp_weighted out = rp_weighted out' /\
      rp_relevant out = rp_relevant out' /\ rp_true out = rp_true out'.
Proof.
  intros argpart argpart' AP AP' rp rp' RP RP' sh sh' SH SH' vsum S lab yp yp' [HR HC Hcl Hsf] Hm Hd.
  destruct (rprec_run f64_cmp argpart AP rp RP sh SH vsum S lab yp HR HC Hcl) as (W & NN & NN' & Hs & ->).
  { intros i Hi _. now apply self_cols, Hsf. } { now apply share_mates. }
  destruct (rprec_run f64_cmp argpart' AP' rp' RP' sh' SH' vsum S lab yp' HR HC Hcl) as (W2 & MM & MM' & Hs2 & ->).
  { intros i Hi _. now apply self_cols, Hsf. } { now apply share_mates. }
  assert (E : forall i, i < length lab -> item_val (V:=f64) lab i (NN' i) = item_val lab i (MM' i)).
  { intros i Hi. apply item_val_hits. destruct (Hs i Hi) as (A & B & C & _). destruct (Hs2 i Hi) as (A2 & B2 & C2 & _).
    rewrite (hits_perm lab i _ _ C), (hits_perm lab i _ _ C2).
    destruct (Nat.eq_dec (relevant lab i) 0) as [E|E]; [now rewrite A, A2|].
    destruct (B E) as (L1 & M1 & T1). destruct (B2 E) as (L2 & M2 & T2).
    rewrite (self_first_max S i (W i) (Hsf i Hi) L1 M1) in T1.
    rewrite (self_first_max S i (W2 i) (Hsf i Hi) L2 M2) in T2.
    apply hits_perm. apply (top_list_unique _ _ _ _ _ (fun x y Hx Hy => Hd i x y Hi (proj1 Hx) (proj1 Hy)) T1 T2). }
  eexists. eexists. split; [reflexivity|]. split; [reflexivity|]. cbn [rp_item rp_macro rp_weighted rp_relevant rp_true].
  assert (E1 : map (fun i => item_val (V:=f64) lab i (NN' i)) (seq 0 (length lab)) =
               map (fun i => item_val lab i (MM' i)) (seq 0 (length lab))).
  { apply map_ext_in. intros i Hi. apply in_seq in Hi. apply E. lia. }
  rewrite E1. split; [reflexivity|]. split; [reflexivity|]. split; [|auto].
  f_equal. f_equal. apply map_ext_in. intros i Hi. apply in_seq in Hi. rewrite E by lia. reflexivity.
Qed.

(** ** C102: the averages *)
Lemma item_xr lab i nn : item_val (V:=xr) lab i nn = XFin (INR (hits lab i nn) / INR (relevant lab i)) \/ relevant lab i = 0.
Proof.
  destruct (Nat.eq_dec (relevant lab i) 0) as [E|E]; [now right|left]. unfold item_val.
  assert (0 < INR (relevant lab i))%R by (apply lt_0_INR; lia).
  destruct (Nat.eqb_spec (hits lab i nn) 0) as [->|Hh].
  - simpl. change (@n0 xr Num_xr) with (XFin 0). f_equal. unfold Rdiv. now rewrite Rmult_0_l.
  - rewrite !nofnat_xr. cbn [ndiv Num_xr]. apply xdiv_fin. lra.
Qed.

Lemma rsum_INR (f : nat -> nat) l : rsum (map (fun x => INR (f x)) l) = INR (sum_nat (map f l)).
Proof. induction l as [|a l IH]; [reflexivity|]. simpl map. change (INR (f a) + rsum (map (fun x => INR (f x)) l) = INR (f a + sum_nat (map f l)))%R. now rewrite IH, plus_INR. Qed.

Theorem C102_averages_exact :
  forall argpart, argpart_ok argpart ->
  forall rp, (forall i l, Permutation (rp i l) l) ->
  forall sh, (forall (i j : nat) l, Permutation (sh i j l) l) ->
  forall (S : smat xr) (lab : list Z) (yp : nat),
    similarities S (length lab) -> two_share lab ->
    let n := length lab in
    exists out nn, r_precision argpart rp sh xsum false S lab "similarity" yp = Ok out /\
      (forall i, i < n -> top_list (sval S i) (fun x => linked S i x /\ x <> i)
                      (Nat.min (relevant lab i) (n_linked S i)) (nn i)) /\
      (** macro: mean over all objects; an object alone in its class counts as 0 *)
      rp_macro out = XFin (rsum (map (fun i => if relevant lab i =? 0 then 0
                                       else INR (hits lab i (nn i)) / INR (relevant lab i)) (seq 0 n)) / INR n)%R /\
      (** weighted: all hits over all relevant items *)
      rp_weighted out = XFin (INR (sum_nat (map (fun i => hits lab i (nn i)) (seq 0 n))) /
                              INR (sum_nat (map (relevant lab) (seq 0 n))))%R.
Proof.
  intros argpart AP rp RP sh SH S lab yp [HR HC Hcl Hsf] Hm n.
  destruct (rprec_run xr_cmp argpart AP rp RP sh SH xsum S lab yp HR HC Hcl) as (W & NN & NN' & Hs & ->).
  { intros i Hi _. now apply self_cols, Hsf. } { now apply share_mates. }
  assert (Hpos : 0 < sum_nat (map (relevant lab) (seq 0 n)) /\ 0 < n).
  { destruct (share_mates lab Hm) as (i0 & Hi0 & Hr).
    assert (Hin : In i0 (seq 0 n)) by (apply in_seq; unfold n; lia).
    pose proof (sum_nat_ge (relevant lab) (seq 0 n) i0 Hin). unfold n in *. lia. }
  eexists. exists NN. split; [reflexivity|]. cbn [rp_macro rp_weighted]. fold n.
  assert (Ei : forall i, i < n -> item_val (V:=xr) lab i (NN' i) =
            XFin (if relevant lab i =? 0 then 0 else INR (hits lab i (NN i)) / INR (relevant lab i))%R).
  { intros i Hi. destruct (Hs i Hi) as (A & _ & C & _). rewrite <- (hits_perm lab i _ _ C).
    destruct (Nat.eqb_spec (relevant lab i) 0) as [E|E].
    - rewrite (A E) in C. symmetry in C. apply Permutation_nil in C. rewrite C. reflexivity.
    - destruct (item_xr lab i (NN' i)) as [H|H]; [exact H|contradiction]. }
  split; [|split].
  - intros i Hi. destruct (Hs i Hi) as (A & B & _). destruct (Nat.eq_dec (relevant lab i) 0) as [E|E].
    + rewrite (A E), E. simpl. constructor; simpl; auto; try constructor; try contradiction. discriminate.
    + destruct (B E) as (Hl & Hmx & T). rewrite (self_first_max S i (W i) (Hsf i Hi) Hl Hmx) in T.
      rewrite (n_linked_cols S i (proj1 (Hsf i Hi))) in T. simpl in T. rewrite Nat.sub_0_r in T. exact T.
  - rewrite (xs_fin _ (fun i => (if relevant lab i =? 0 then 0 else INR (hits lab i (NN i)) / INR (relevant lab i))%R)).
    2:{ intros i Hi. apply in_seq in Hi. apply Ei. lia. }
    rewrite nofnat_xr. cbn [ndiv Num_xr]. rewrite xdiv_fin; [reflexivity|]. apply not_0_INR. lia.
  - rewrite (xs_fin _ (fun i => INR (hits lab i (NN i)))).
    2:{ intros i Hi. apply in_seq in Hi. rewrite Ei by lia. rewrite nofnat_xr. cbn [nmul Num_xr xmul]. f_equal.
        destruct (Nat.eqb_spec (relevant lab i) 0) as [E|E].
        - rewrite E. destruct (Hs i ltac:(unfold n in *; lia)) as (A & _). rewrite (A E). simpl. lra.
        - field. now apply not_0_INR. }
    rewrite nofnat_xr, rsum_INR. cbn [ndiv Num_xr]. rewrite xdiv_fin; [reflexivity|]. apply not_0_INR. lia.
Qed.

(** ** C103: refused and undefined input *)
Theorem C103_only_sparse_similarities :
  forall argpart rp sh vsum dense (S : smat f64) (lab : list Z) (metric : string) (yp : nat),
    srow S = length lab -> scol S = length lab -> valid_metric metric = true ->
    dense = true \/ metric = "distance"%string ->
    r_precision argpart rp sh vsum dense S lab metric yp = Raise NotImplementedError.
Proof.
  intros argpart rp sh vsum dense S lab metric yp HR HC Hv H. rewrite rprec_open by assumption.
  destruct H as [->| ->]; [now rewrite orb_true_r|]. reflexivity.
Qed.

Theorem C103_all_labels_different :
  forall argpart rp sh vsum (S : smat f64) (lab : list Z) (yp : nat),
    srow S = length lab -> scol S = length lab -> NoDup lab ->
    r_precision argpart rp sh vsum false S lab "similarity" yp = Raise ZeroDivisionError.
Proof.
  intros argpart rp sh vsum S lab yp HR HC ND. apply rprec_alone; auto.
  intros i Hi. destruct (Nat.eq_dec (relevant lab i) 0) as [|E]; [assumption|]. exfalso.
  apply (relevant_pos lab i Hi) in E. destruct E as (j & Hj & Hne & E). apply Hne.
  now apply (proj1 (NoDup_nth lab 0%Z) ND).
Qed.

(** an object that shares its label with another one but has no stored
    similarity at all, not even to itself, makes the whole call fail *)
Theorem C103_empty_row_raises :
  forall argpart, argpart_ok argpart ->
  forall rp, (forall i l, Permutation (rp i l) l) ->
  forall sh, (forall (i j : nat) l, Permutation (sh i j l) l) ->
  forall vsum (S : smat f64) (lab : list Z) (yp i j : nat),
    srow S = length lab -> scol S = length lab -> (forall i, i < length lab -> clean_row S i) ->
    i < length lab -> j < length lab -> j <> i -> nth j lab 0%Z = nth i lab 0%Z ->
    (forall x, ~ linked S i x) ->
    r_precision argpart rp sh vsum false S lab "similarity" yp = Raise ValueError.
Proof.
  intros argpart AP rp RP sh SH vsum S lab yp i j HR HC Hcl Hi Hj Hne E Hx.
  apply (rprec_empty_row f64_cmp argpart AP rp RP sh SH vsum S lab yp i HR HC Hcl Hi); auto.
  apply relevant_pos; eauto.
Qed.

(** so does an explicitly stored zero *)
Theorem C103_stored_zero_raises :
  forall argpart, argpart_ok argpart ->
  forall rp, (forall i l, Permutation (rp i l) l) ->
  forall sh, (forall (i j : nat) l, Permutation (sh i j l) l) ->
  forall vsum (S : smat f64) (lab : list Z) (yp i j x : nat),
    srow S = length lab -> scol S = length lab ->
    (forall i y, i < length lab -> linked S i y -> nisnan (sval S i y) = false) ->
    (forall i, i < length lab -> linked S i i) ->
    i < length lab -> j < length lab -> j <> i -> nth j lab 0%Z = nth i lab 0%Z ->
    linked S i x -> neq (sval S i x) n0 = true ->
    r_precision argpart rp sh vsum false S lab "similarity" yp = Raise IndexError.
Proof.
  intros argpart AP rp RP sh SH vsum S lab yp i j x HR HC Hnn Hself Hi Hj Hne E Hx Hz.
  apply (rprec_stored_zero f64_cmp argpart AP rp RP sh SH vsum S lab yp i x HR HC Hnn); auto.
  - intros k Hk. exists k. auto.
  - apply relevant_pos; eauto.
  - unfold nonzero. now rewrite Hz.
Qed.

(** ** C104: DEFECT: the most similar object is dropped, whoever it is; an
    object that is less similar to itself than to some others is counted as a
    correct neighbour of itself *)
Theorem C104_counts_itself :
  forall argpart, argpart_ok argpart ->
  forall rp, (forall i l, Permutation (rp i l) l) ->
  forall sh, (forall (i j : nat) l, Permutation (sh i j l) l) ->
  forall vsum (S : smat f64) (lab : list Z) (yp i : nat),
    srow S = length lab -> scol S = length lab ->
    (forall j, j < length lab -> clean_row S j /\ linked S j j) ->
    i < length lab -> relevant lab i <> 0 ->
    (forall x, linked S i x -> x <> i ->
       nlt (sval S i x) (sval S i i) = true \/ nlt (sval S i i) (sval S i x) = true) ->
    (** between one and R objects are more similar to i than i itself *)
    1 <= length (filter (fun x => is_stored S i x && nlt (sval S i i) (sval S i x)) (seq 0 (length lab))) <= relevant lab i ->
    exists out w nn,
      r_precision argpart rp sh vsum false S lab "similarity" yp = Ok out /\
      w <> i /\ linked S i w /\
      top_list (sval S i) (fun x => linked S i x /\ x <> w) (Nat.min (relevant lab i) (n_linked S i)) nn /\
      In i nn /\ 1 <= hits lab i nn /\
      nth i (rp_item out) nnan = ndiv (nofnat (hits lab i nn)) (nofnat (relevant lab i)).
Proof.
  intros argpart AP rp RP sh SH vsum S lab yp i HR HC Hcl Hi Hr Ht HB.
  destruct (rprec_run f64_cmp argpart AP rp RP sh SH vsum S lab yp HR HC) as (W & NN & NN' & Hs & ->).
  { intros j Hj. now apply Hcl. }
  { intros j Hj _ E. destruct (Hcl j Hj) as (_ & L). apply stored_linked in L. rewrite E in L. contradiction. }
  { exists i. auto. }
  destruct (Hs i Hi) as (_ & B & C & _). destruct (B Hr) as (Lw & Mw & T). destruct (Hcl i Hi) as (Hci & Hli).
  rewrite <- HC in HB.
  destruct (self_stays f64_cmp S i (W i) (relevant lab i) (NN i) Hci Hli Lw Mw Ht HB T) as (Hwi & Hin).
  eexists. exists (W i), (NN i). split; [reflexivity|]. split; [exact Hwi|]. split; [exact Lw|]. split.
  { rewrite (n_linked_cols S i Hli) in T. simpl in T. now rewrite Nat.sub_0_r in T. }
  split; [exact Hin|].
  assert (Hh : 1 <= hits lab i (NN i)).
  { unfold hits. assert (In i (filter (fun x => (nth x lab 0 =? nth i lab 0)%Z) (NN i))).
    { apply filter_In. split; [exact Hin|apply Z.eqb_refl]. }
    destruct (filter _ (NN i)); [contradiction|simpl; lia]. }
  split; [exact Hh|]. cbn [rp_item]. rewrite nth_map_seq by exact Hi. unfold item_val.
  rewrite (hits_perm lab i _ _ C). destruct (Nat.eqb_spec (hits lab i (NN i)) 0); [lia|reflexivity].
Qed.

(** ** C105: the returned neighbour labels *)
Theorem C105_neighbour_labels :
  forall argpart, argpart_ok argpart ->
  forall rp, (forall i l, Permutation (rp i l) l) ->
  forall sh, (forall (i j : nat) l, Permutation (sh i j l) l) ->
  forall vsum (S : smat f64) (lab : list Z) (yp : nat),
    similarities S (length lab) -> two_share lab ->
    (forall i x, i < length lab -> linked S i x -> nisfin (sval S i x) = true) ->
    exists out, r_precision argpart rp sh vsum false S lab "similarity" yp = Ok out /\
      forall i, i < length lab ->
        exists nn, top_list (sval S i) (fun x => linked S i x /\ x <> i)
                      (Nat.min (relevant lab i) (n_linked S i)) nn /\
          length (nth i (rp_pred out) []) = yp /\
          (** no hit: the labels are withheld *)
          (hits lab i nn = 0 -> nth i (rp_pred out) [] = repeat int_min yp) /\
          (** otherwise the labels of R neighbours at most; the first one is the nearest *)
          (hits lab i nn <> 0 -> forall r, r < yp -> nth r (nth i (rp_pred out) []) 0%Z =
             if r <? length nn then nth (nth r nn 0) lab 0%Z else int_min).
Proof.
  intros argpart AP rp RP sh SH vsum S lab yp [HR HC Hcl Hsf] Hm Hfin.
  destruct (rprec_run f64_cmp argpart AP rp RP sh SH vsum S lab yp HR HC Hcl) as (W & NN & NN' & Hs & ->).
  { intros i Hi _. now apply self_cols, Hsf. } { now apply share_mates. }
  eexists. split; [reflexivity|]. cbn [rp_pred]. intros i Hi. destruct (Hs i Hi) as (A & B & C & D).
  assert (T : top_list (sval S i) (fun x => linked S i x /\ x <> i) (Nat.min (relevant lab i) (n_linked S i)) (NN i)).
  { destruct (Nat.eq_dec (relevant lab i) 0) as [E|E].
    + rewrite (A E), E. simpl. constructor; simpl; auto; try constructor; try contradiction. discriminate.
    + destruct (B E) as (Hl & Hmx & T). rewrite (self_first_max S i (W i) (Hsf i Hi) Hl Hmx) in T.
      rewrite (n_linked_cols S i (proj1 (Hsf i Hi))) in T. simpl in T. rewrite Nat.sub_0_r in T. exact T. }
  assert (E : NN' i = NN i).
  { destruct (NN i) as [|x l] eqn:En.
    - symmetry in C. now apply Permutation_nil in C.
    - apply D. exists x. split; [now left|]. apply Hfin; [exact Hi|]. apply (tl_in _ _ _ _ T). now left. }
  exists (NN i). split; [exact T|]. rewrite nth_map_seq by exact Hi. rewrite E. unfold item_lab. split; [|split].
  - destruct (_ =? 0); [apply repeat_length|]. rewrite app_length, firstn_length, map_length, repeat_length. lia.
  - intros ->. reflexivity.
  - intros Hh r Hr. destruct (Nat.eqb_spec (hits lab i (NN i)) 0) as [|_]; [contradiction|].
    destruct (Nat.ltb_spec r (length (NN i))) as [Hl|Hl].
    + rewrite app_nth1 by (rewrite firstn_length, map_length; lia). rewrite nth_firstn_lt by exact Hr.
      rewrite nth_indep with (d' := (fun x => nth x lab 0%Z) 0) by (rewrite map_length; exact Hl).
      apply (map_nth (fun x => nth x lab 0%Z)).
    + rewrite app_nth2 by (rewrite firstn_length, map_length; lia). rewrite firstn_length, map_length.
      rewrite Nat.min_r by lia. rewrite nth_indep with (d' := int_min) by (rewrite repeat_length; lia). apply nth_repeat.
Qed.

(** an argpartition that leaves two positions it was not asked for unsorted *)
Definition sw (c : nat) : nat := if c =? 2 then 3 else if c =? 3 then 2 else c.
Definition lazy_argpart (l : list f64) (ks : list nat) : list nat :=
  let p := ref_argsort l in
  if (3 <? length l) && negb (existsb (fun k => (k =? 2) || (k =? 3)) ks)
  then map (fun c => nth (sw c) p 0) (seq 0 (length l)) else p.

Lemma lazy_argpart_ok : argpart_ok lazy_argpart.
Proof.
  intros l ks Hks. unfold lazy_argpart. pose proof (ref_argsort_ok f64_cmp l) as (HP & HS).
  destruct (_ && _) eqn:E; [|now apply argsort_argpart].
  apply andb_true_iff in E. destruct E as (E1 & E2). apply Nat.ltb_lt in E1. apply negb_true_iff in E2.
  set (p := ref_argsort l) in *. set (n := length l) in *.
  assert (Lp : length p = n) by (rewrite (Permutation_length HP); apply seq_length).
  split.
  - assert (PS : Permutation (map sw (seq 0 n)) (seq 0 n)).
    { replace n with (4 + (n - 4)) by lia. rewrite seq_app, map_app. apply Permutation_app.
      - cbn. repeat (constructor; try reflexivity).
      - rewrite (map_ext_in _ (fun x => x)), map_id; [reflexivity|]. intros x Hx. apply in_seq in Hx. unfold sw.
        destruct (Nat.eqb_spec x 2); [lia|]. destruct (Nat.eqb_spec x 3); [lia|reflexivity]. }
    etransitivity; [|exact HP]. rewrite <- (map_map sw (fun c => nth c p 0)). apply map_nth_perm. now rewrite Lp.
  - intros k Hk a. specialize (Hks k Hk). fold n in Hks.
    assert (Ek : k <> 2 /\ k <> 3).
    { split; intros ->; assert (existsb (fun k => (k =? 2) || (k =? 3)) ks = true); try congruence;
        apply existsb_exists; eexists; (split; [exact Hk|reflexivity]). }
    assert (Esw : sw k = k). { unfold sw. destruct (Nat.eqb_spec k 2); [lia|]. destruct (Nat.eqb_spec k 3); [lia|reflexivity]. }
    split.
    + intros Ha. rewrite !nth_map_seq by lia. rewrite Esw. apply HS; [|exact Hks].
      unfold sw. destruct (Nat.eqb_spec a 2); [lia|]. destruct (Nat.eqb_spec a 3); lia.
    + intros Ha Hn. rewrite !nth_map_seq by lia. rewrite Esw. apply HS.
      * unfold sw. destruct (Nat.eqb_spec a 2); [lia|]. destruct (Nat.eqb_spec a 3); lia.
      * fold n. unfold sw. destruct (Nat.eqb_spec a 2); [lia|]. destruct (Nat.eqb_spec a 3); lia.
Qed.

(** ** concrete matrices *)
Definition sp_of (rows : list (list Z)) : smat f64 :=
  SMat (length rows) (length rows) (fun i j => let z := nth j (nth i rows []) 0%Z in
    if (z =? 0)%Z then None else Some (nofZ z)).

Fixpoint vsumf (l : list f64) : f64 := match l with [] => n0 | [v] => v | v :: l' => nadd v (vsumf l') end.
Lemma vsumf_ok l : np_sum l (vsumf l).
Proof.
  induction l as [|v [|w l] IH]; [constructor|constructor|].
  change (v :: w :: l) with ([v] ++ (w :: l)) at 1. change (vsumf (v :: w :: l)) with (nadd v (vsumf (w :: l))).
  constructor; try discriminate; [constructor|exact IH].
Qed.

(** decision procedure for the hypotheses on a concrete matrix *)
Definition sims_b (S : smat f64) (n : nat) : bool :=
  (srow S =? n) && (scol S =? n) &&
  forallb (fun i => is_stored S i i &&
    forallb (fun x => negb (is_stored S i x) ||
      (negb (nisnan (sval S i x)) && nonzero (sval S i x) && ((x =? i) || nlt (sval S i x) (sval S i i))))
      (seq 0 n)) (seq 0 n).
Lemma linked_b {V} {N : Num V} (S : smat V) i x : linked S i x <-> x < scol S /\ is_stored S i x = true.
Proof.
  unfold linked, is_stored. destruct (stored S i x) as [v|]; split; intros (H & K); (split; [exact H|]); eauto.
  - destruct K; discriminate.
  - discriminate.
Qed.
Lemma sims_b_ok S n : sims_b S n = true -> similarities S n.
Proof.
  unfold sims_b. rewrite !andb_true_iff, forallb_forall. intros ((H1 & H2) & H).
  apply Nat.eqb_eq in H1, H2.
  assert (G : forall i x, i < n -> linked S i x -> is_stored S i i = true /\
     nisnan (sval S i x) = false /\ nonzero (sval S i x) = true /\ (x <> i -> nlt (sval S i x) (sval S i i) = true)).
  { intros i x Hi Hx. specialize (H i). rewrite in_seq, andb_true_iff, forallb_forall in H.
    destruct H as (Ha & Hb); [lia|]. apply linked_b in Hx. destruct Hx as (Hx & Hs).
    specialize (Hb x). rewrite in_seq, Hs in Hb. specialize (Hb ltac:(lia)). cbn [negb orb] in Hb.
    rewrite !andb_true_iff, orb_true_iff, negb_true_iff, Nat.eqb_eq in Hb. destruct Hb as ((B1 & B2) & B3).
    repeat split; auto. intros Hne. destruct B3; [contradiction|assumption]. }
  assert (Hself : forall i, i < n -> is_stored S i i = true).
  { intros i Hi. specialize (H i). rewrite in_seq, andb_true_iff in H. apply H. lia. }
  constructor; auto.
  - intros i Hi x Hx. destruct (G i x Hi Hx) as (_ & A & B & _). auto.
  - intros i Hi. split; [apply linked_b; split; [lia|now apply Hself]|].
    intros x Hx Hne. now apply (G i x Hi Hx).
Qed.

Definition exS : smat f64 := sp_of
  [[9;3;2;1]; [3;9;1;2]; [2;1;9;4]; [0;2;4;9]]%Z.
Definition exlab : list Z := [5;5;6;6]%Z.
Lemma exlab_share : two_share exlab.
Proof. exists 0, 1. repeat split; auto; cbn; lia. Qed.
Definition idp (_ : nat) (l : list nat) : list nat := l.
Definition idp2 (_ _ : nat) (l : list nat) : list nat := l.

(** every object retrieves its class mate *)
Example C100_case : similarities exS (length exlab) /\ two_share exlab /\
  (Z.of_nat (sum_nat (map (relevant exlab) (seq 0 (length exlab)))) <= 2 ^ 53)%Z /\
  exists out, r_precision ref_argpart idp idp2 vsumf false exS exlab "similarity" 2 = Ok out /\
    map (fun v => neq v n1) (rp_item out) = [true; true; true; true] /\ neq (rp_weighted out) n1 = true /\
    rp_relevant out = [-1; 1; 1]%Z /\ rp_true out = [1; 1; 2; 2] /\ rp_pred out = [[5; int_min]; [5; int_min]; [6; int_min]; [6; int_min]]%Z.
Proof.
  split; [apply sims_b_ok; vm_compute; reflexivity|]. split; [exact exlab_share|]. split; [vm_compute; discriminate|].
  eexists. split; [reflexivity|]. repeat split; vm_compute; reflexivity.
Qed.

Example C101_case : forall i x y, i < length exlab -> linked exS i x -> linked exS i y -> x <> y ->
  nlt (sval exS i x) (sval exS i y) = true \/ nlt (sval exS i y) (sval exS i x) = true.
Proof.
  intros i x y Hi Hx Hy Hne. apply linked_b in Hx, Hy. destruct Hx as (Hx & Sx). destruct Hy as (Hy & Sy).
  cbn in Hi, Hx, Hy.
  assert (B : forallb (fun i => forallb (fun x => forallb (fun y => (x =? y) || negb (is_stored exS i x) || negb (is_stored exS i y) ||
     nlt (sval exS i x) (sval exS i y) || nlt (sval exS i y) (sval exS i x)) (seq 0 4)) (seq 0 4)) (seq 0 4) = true) by (vm_compute; reflexivity).
  rewrite forallb_forall in B. specialize (B i ltac:(apply in_seq; lia)). rewrite forallb_forall in B.
  specialize (B x ltac:(apply in_seq; lia)). rewrite forallb_forall in B. specialize (B y ltac:(apply in_seq; lia)).
  rewrite Sx, Sy in B. apply Nat.eqb_neq in Hne. rewrite Hne in B. cbn in B. now apply orb_true_iff in B.
Qed.

Definition exXz (i j : nat) : Z := nth j (nth i [[9;3;2;1]; [3;9;1;2]; [2;1;9;4]; [3;2;4;9]]%Z []) 0%Z.
Definition exX : smat xr := SMat 4 4 (fun i j => Some (XFin (IZR (exXz i j)))).
Lemma exXz_ok i x : i < 4 -> x < 4 -> (0 < exXz i x)%Z /\ (x <> i -> (exXz i x < exXz i i)%Z).
Proof. intros Hi Hx. do 4 (destruct i as [|i]; [do 4 (destruct x as [|x]; [cbn; lia|]); lia|]). lia. Qed.
Example C102_case : similarities exX (length exlab) /\ two_share exlab.
Proof.
  split; [|exact exlab_share]. constructor; try reflexivity.
  - intros i Hi x (Hx & _). cbn in Hi, Hx. destruct (exXz_ok i x Hi Hx) as (P & _).
    change (sval exX i x) with (XFin (IZR (exXz i x))). split; [reflexivity|]. unfold nonzero. cbn [neq Num_xr n0 nofZ xeq].
    destruct (Req_EM_T _ _) as [E|]; [|reflexivity]. change 0%R with (IZR 0) in E. apply eq_IZR in E. lia.
  - intros i Hi. cbn in Hi. split; [split; [cbn; lia|eexists; reflexivity]|].
    intros x (Hx & _) Hne. cbn in Hx. destruct (exXz_ok i x Hi Hx) as (_ & P). specialize (P Hne). apply IZR_lt in P.
    change (xlt (XFin (IZR (exXz i x))) (XFin (IZR (exXz i i))) = true). cbn [xlt].
    destruct (Rlt_dec _ _); [reflexivity|contradiction].
Qed.

Example C103_case : NoDup [3; 1; 2; 7]%Z /\ length [3; 1; 2; 7]%Z = srow exS /\
  r_precision ref_argpart idp idp2 vsumf false exS [3; 1; 2; 7]%Z "similarity" 0 = Raise ZeroDivisionError.
Proof.
  split; [|split; [reflexivity|vm_compute; reflexivity]].
  repeat (constructor; [cbn; lia|]). constructor.
Qed.

(** object 0 (label 5) shares its label with object 1 only, which has no stored
    similarity with it; object 2 is more similar to 0 than 0 itself; the
    reported precision of 0 is 1 *)
Definition exI : smat f64 := sp_of [[4;0;6;3]; [0;7;1;2]; [6;1;9;4]; [3;2;4;9]]%Z.
Theorem C104_perfect_score_without_neighbour :
  (forall j, j < length exlab -> clean_row exI j /\ linked exI j j) /\
  relevant exlab 0 = 1 /\ ~ linked exI 0 1 /\
  length (filter (fun x => is_stored exI 0 x && nlt (sval exI 0 0) (sval exI 0 x)) (seq 0 (length exlab))) = 1 /\
  exists out, r_precision ref_argpart idp idp2 vsumf false exI exlab "similarity" 0 = Ok out /\
    neq (nth 0 (rp_item out) nnan) n1 = true.
Proof.
  split; [|split; [reflexivity|split; [|split; [vm_compute; reflexivity|]]]].
  - assert (B : forallb (fun i => is_stored exI i i && forallb (fun x => negb (is_stored exI i x) ||
       (negb (nisnan (sval exI i x)) && nonzero (sval exI i x))) (seq 0 4)) (seq 0 4) = true) by (vm_compute; reflexivity).
    intros j Hj. cbn in Hj. rewrite forallb_forall in B. specialize (B j ltac:(apply in_seq; lia)).
    rewrite andb_true_iff, forallb_forall in B. destruct B as (B1 & B2). split; [|apply linked_b; cbn; auto].
    intros x Hx. apply linked_b in Hx. destruct Hx as (Hx & Sx). cbn in Hx.
    specialize (B2 x ltac:(apply in_seq; lia)). rewrite Sx in B2. cbn [negb orb] in B2.
    now rewrite andb_true_iff, negb_true_iff in B2.
  - intros H. apply linked_b in H. destruct H as (_ & H). vm_compute in H. discriminate.
  - eexists. split; [reflexivity|]. vm_compute. reflexivity.
Qed.

(** DEFECT: beyond the first label the order is not that of the similarities:
    object 0 has neighbours 1, 5, 2, 3 in order of similarity, with labels
    7, 8, 7, 7; the two reported labels can be 7, 7 *)
Definition exO : smat f64 := sp_of
  [[9;8;6;5;4;7]; [8;9;1;2;3;4]; [6;1;9;2;3;4]; [5;1;2;9;3;4]; [4;1;2;3;9;5]; [7;1;2;3;4;9]]%Z.
Theorem C105_order_not_guaranteed :
  argpart_ok lazy_argpart /\ similarities exO 6 /\ two_share [7;7;7;7;7;8]%Z /\
  (exists out, r_precision lazy_argpart idp idp2 vsumf false exO [7;7;7;7;7;8]%Z "similarity" 2 = Ok out /\
     nth 0 (rp_pred out) [] = [7;7]%Z) /\
  (exists out, r_precision ref_argpart idp idp2 vsumf false exO [7;7;7;7;7;8]%Z "similarity" 2 = Ok out /\
     nth 0 (rp_pred out) [] = [7;8]%Z).
Proof.
  split; [exact lazy_argpart_ok|]. split; [apply sims_b_ok; vm_compute; reflexivity|].
  split; [exists 0, 1; repeat split; auto; cbn; lia|].
  split; eexists; (split; [reflexivity|vm_compute; reflexivity]).
Qed.

(** no hit: object 3 (label 5) gets no labels although it has neighbours *)
Example C105_case : similarities exS 4 /\ two_share [5;6;6;5]%Z /\
  exists out, r_precision ref_argpart idp idp2 vsumf false exS [5;6;6;5]%Z "similarity" 2 = Ok out /\
    rp_pred out = [[int_min; int_min]; [int_min; int_min]; [int_min; int_min]; [int_min; int_min]] /\
    map (fun v => neq v n0) (rp_item out) = [true; true; true; true].
Proof.
  split; [apply sims_b_ok; vm_compute; reflexivity|].
  split; [exists 0, 3; repeat split; auto; cbn; lia|].
  eexists. split; [reflexivity|]. split; vm_compute; reflexivity.
Qed.

Print Assumptions C100_value_per_object.
Print Assumptions C100_values_in_unit_interval.
Print Assumptions C101_deterministic_without_ties.
Print Assumptions C102_averages_exact.
Print Assumptions C103_only_sparse_similarities.
Print Assumptions C103_all_labels_different.
Print Assumptions C103_empty_row_raises.
Print Assumptions C103_stored_zero_raises.
Print Assumptions C104_counts_itself.
Print Assumptions C104_perfect_score_without_neighbour.
Print Assumptions C105_neighbour_labels.
Print Assumptions C105_order_not_guaranteed.
