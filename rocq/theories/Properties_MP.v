(** Properties C07-C13: empiric Mutual Proximity (global_scaling.py:28-412).
    Matrices are IEEE float64 unless a theorem says otherwise.  The bound
    n <= 2^53 is the range in which numpy converts the counts exactly. *)
From Coq Require Import String.
From Coq Require Import ZArith List Arith Lia Bool Reals Lra.
From Flocq Require Import Core BinarySingleNaN.
From Verif Require Import Py Num Arr Conc S_Neighbors S_MP M_IO M_MPEmpiric.
From Verif Require Import P_F64 P_Hubness P_MPEmpiric P_MPEmpiric2 P_MPSparse.
Import ListNotations.
Local Open Scope nat_scope.

(** ** C07 *)
Theorem C07_mp_distance_formula :
  forall (D : arr2 f64), (Z.of_nat (nrow D) <= 2 ^ 53)%Z -> nrow D = ncol D ->
  exists M, mp_empiric_full D "distance" TNone = Ok M /\
    nrow M = nrow D /\ ncol M = nrow D /\
    (forall i, i < nrow D -> at2 M i i = n0) /\
    (forall i j, i < j -> j < nrow D ->
       at2 M i j = nsub n1 (ndiv (nofnat (farther_from_both D (nrow D) i j (at2 D j i)))
                                 (nofnat (nrow D))) /\
       at2 M j i = at2 M i j).
Proof.
  intros D Hb Hsq. exists (mp_full_core "distance" D).
  pose proof (mp_full_ok D "distance" TNone Hsq eq_refl eq_refl) as H.
  split; [exact H|]. exact (mp_dist_formula D TNone _ Hb H).
Qed.

(** the similarity counterpart *)
Theorem C07_mp_similarity_formula :
  forall (S : arr2 f64), (Z.of_nat (nrow S) <= 2 ^ 53)%Z -> nrow S = ncol S ->
  exists M, mp_empiric_full S "similarity" TNone = Ok M /\
    nrow M = nrow S /\ ncol M = nrow S /\
    (forall i, i < nrow S -> at2 M i i = n1) /\
    (forall i j, i < j -> j < nrow S ->
       (nlt (at2 S j i) ninf = true ->
        at2 M i j = ndiv (nofnat (at_most_similar_to_both S (nrow S) i j (at2 S j i)))
                         (nofnat (nrow S))) /\
       at2 M j i = at2 M i j).
Proof.
  intros S Hb Hsq. exists (mp_full_core "similarity" S).
  pose proof (mp_full_ok S "similarity" TNone Hsq eq_refl eq_refl) as H.
  split; [exact H|]. exact (mp_sim_formula S TNone _ Hb H).
Qed.

(** ** C08 *)
Theorem C08_mp_range :
  forall (D : arr2 f64) metric t M, (Z.of_nat (nrow D) <= 2 ^ 53)%Z ->
    mp_empiric_full D metric t = Ok M ->
    (forall i j, i < nrow D -> j < nrow D ->
       nle n0 (at2 M i j) = true /\ nle (at2 M i j) n1 = true) /\
    (metric = "distance"%string ->
     forall i j, i < nrow D -> j < nrow D -> i <> j -> nlt n0 (at2 M i j) = true) /\
    (metric = "similarity"%string ->
     (forall i j, i < j -> j < nrow D -> nlt (at2 D j i) ninf = true) ->
     forall i j, i < nrow D -> j < nrow D -> i <> j -> nlt (at2 M i j) n1 = true).
Proof.
  intros D metric t M Hb H. split; [exact (mp_range D metric t M Hb H)|]. split.
  - intros ->. exact (mp_dist_positive D t M Hb H).
  - intros ->. exact (mp_sim_below_one D t M Hb H).
Qed.

(** ** C09 *)
Theorem C09_mp_distance_order_invariant :
  forall (D D' : arr2 f64) M M',
    nrow D = nrow D' ->
    (forall i j a b, i < nrow D -> j < nrow D -> a < nrow D -> b < nrow D -> i <> j -> a <> b ->
       nlt (at2 D i j) (at2 D a b) = nlt (at2 D' i j) (at2 D' a b)) ->
    mp_empiric_full D "distance" TNone = Ok M ->
    mp_empiric_full D' "distance" TNone = Ok M' ->
    eq2 M M'.
Proof.
  intros D D' M M' En Ho H H'. apply mp_full_inv in H as (_ & _ & _ & ->).
  apply mp_full_inv in H' as (_ & _ & _ & ->). now apply (mp_dist_order f64_cmp).
Qed.

Theorem C09_mp_similarity_order_invariant :
  forall (S S' : arr2 f64) M M',
    nrow S = nrow S' ->
    (forall i j a b, i < nrow S -> j < nrow S -> a < nrow S -> b < nrow S -> i <> j -> a <> b ->
       nle (at2 S i j) (at2 S a b) = nle (at2 S' i j) (at2 S' a b)) ->
    (forall i j, i < nrow S -> j < nrow S -> i <> j ->
       nlt (at2 S i j) ninf = true /\ nlt (at2 S' i j) ninf = true) ->
    mp_empiric_full S "similarity" TNone = Ok M ->
    mp_empiric_full S' "similarity" TNone = Ok M' ->
    eq2 M M'.
Proof.
  intros S S' M M' En Ho Hf H H'. apply mp_full_inv in H as (_ & _ & _ & ->).
  apply mp_full_inv in H' as (_ & _ & _ & ->). now apply (mp_sim_order f64_cmp).
Qed.

(** ** C10 *)
Theorem C10_mp_duality :
  forall (D S : arr2 f64) MD MS,
    (Z.of_nat (nrow D) <= 2 ^ 53)%Z -> nrow D = nrow S ->
    mp_empiric_full D "distance" TNone = Ok MD ->
    mp_empiric_full S "similarity" TNone = Ok MS ->
    (forall i j a b, i < nrow D -> j < nrow D -> a < nrow D -> b < nrow D -> i <> j -> a <> b ->
       nlt (at2 D i j) (at2 D a b) = nlt (at2 S a b) (at2 S i j)) ->
    (forall i j, i < nrow D -> j < nrow D -> i <> j -> nlt (at2 S i j) ninf = true) ->
    forall i j, i < nrow D -> j < nrow D -> i <> j ->
      nle (nsub n1 (at2 MS i j)) (at2 MD i j) = true /\
      ((forall a b x, a < nrow D -> b < nrow D -> x < nrow D -> a <> b -> x <> a -> x <> b ->
          neq (at2 S a x) (at2 S b a) = false /\ neq (at2 S b x) (at2 S b a) = false) ->
       at2 MD i j = nsub n1 (at2 MS i j)).
Proof. intros D S MD MS. exact (mp_dual D S TNone TNone MD MS). Qed.

Definition exTieD : arr2 f64 := of_rows nnan (map (map f64_ofZ) [[0;1;1];[1;0;1];[1;1;0]]%Z).
Definition exTieS : arr2 f64 := of_rows nnan (map (map f64_ofZ) [[2;1;1];[1;2;1];[1;1;2]]%Z).

(** with ties the two metrics disagree although all other hypotheses hold *)
Theorem C10_ties_break_duality :
  exists (D S MD MS : arr2 f64) i j,
    nrow D = 3 /\ nrow S = 3 /\ i < 3 /\ j < 3 /\ i <> j /\
    mp_empiric_full D "distance" TNone = Ok MD /\
    mp_empiric_full S "similarity" TNone = Ok MS /\
    (forall i j a b, i < 3 -> j < 3 -> a < 3 -> b < 3 -> i <> j -> a <> b ->
       nlt (at2 D i j) (at2 D a b) = nlt (at2 S a b) (at2 S i j)) /\
    neq (at2 MD i j) (nsub n1 (at2 MS i j)) = false /\
    nisnan (at2 MD i j) = false /\ nisnan (at2 MS i j) = false.
Proof.
  exists exTieD, exTieS, (mp_full_core "distance" exTieD), (mp_full_core "similarity" exTieS), 0, 1.
  do 3 (split; [reflexivity || lia|]). split; [lia|]. split; [lia|].
  split; [reflexivity|]. split; [reflexivity|]. split.
  - intros i j a b. destruct i as [|[|[|i]]], j as [|[|[|j]]], a as [|[|[|a]]], b as [|[|[|b]]];
      intros; try lia; reflexivity.
  - vm_compute. auto.
Qed.

(** ** C11 *)
Theorem C11_sample_all_equals_full :
  forall (D : arr2 f64) metric M,
    (Z.of_nat (nrow D) <= 2 ^ 53)%Z -> symmetric D -> valid_metric metric = true ->
    (metric = "similarity"%string -> forall i j, i < nrow D -> j < nrow D -> i <> j ->
       nlt (at2 D i j) ninf = true) ->
    mp_empiric_full D metric TNone = Ok M ->
    exists M', mp_empiric_sample D (seq 0 (nrow D)) metric None = Ok M' /\ eq2 M' M.
Proof.
  intros D metric M Hb Hs Hv Hf. apply mp_sample_all_eq_full; auto.
  intros Hm. apply Hf. destruct (valid_metric_cases metric Hv) as [(-> & _ & E)|(-> & _)].
  - congruence.
  - reflexivity.
Qed.

(** any sample: [idx_j] is the object sampled in column j *)
Theorem C11_sample_formula :
  forall (D : arr2 f64) idx metric (test : option (list nat)),
    ncol D <= nrow D -> length idx = ncol D -> valid_metric metric = true ->
    (forall s, In s idx -> s < nrow D) ->
    match test with None => True | Some t => forall s, In s t -> s < nrow D end ->
    exists M, mp_empiric_sample D idx metric test = Ok M /\
    nrow M = match test with None => nrow D | Some t => length t end /\
    ncol M = ncol D /\
    forall a j i, a < nrow M -> j < ncol D ->
      i = match test with None => a | Some t => nth a t 0 end ->
      let others x := negb (nth x idx 0 =? i) && negb (nth x idx 0 =? nth j idx 0) in
      (nth j idx 0 = i -> at2 M a j = if is_sim metric then n1 else n0) /\
      (nth j idx 0 <> i -> metric = "distance"%string ->
       at2 M a j = nsub n1 (ndiv (nofnat (count_if (fun x => others x &&
           (nlt (at2 D i j) (at2 D i x) && nlt (at2 D i j) (at2 D (nth j idx 0) x))) (ncol D)))
           (nofnat (ncol D)))) /\
      (nth j idx 0 <> i -> metric = "similarity"%string -> nlt (at2 D i j) ninf = true ->
       at2 M a j = ndiv (nofnat (count_if (fun x => others x &&
           (nle (at2 D i x) (at2 D i j) && nle (at2 D (nth j idx 0) x) (at2 D i j))) (ncol D)))
           (nofnat (ncol D))).
Proof.
  intros D idx metric test H1 H2 H3 H4 H5.
  destruct (mp_sample_total D idx metric test H1 H2 H3 H4 H5) as (M & HM).
  exists M. split; [exact HM|].
  destruct (mp_sample_spec f64_cmp D idx metric test M HM) as (R & C & A).
  split; [exact R|]. split; [exact C|]. intros a j i Ha Hj -> others.
  destruct (A a j Ha Hj) as (A1 & A2). split; [exact A1|]. split.
  - intros Hne Hm. rewrite (A2 Hne); [|rewrite Hm; discriminate]. now subst metric.
  - intros Hne Hm Hfin. rewrite (A2 Hne); [|auto]. now subst metric.
Qed.

(** ** C12 *)
(** exact arithmetic: sparse and dense agree on every stored entry, and nothing
    is stored elsewhere *)
Theorem C12_sparse_equals_dense_exact :
  forall (S : smat xr) n m R M, (Z.of_nat n <= 2 ^ 53)%Z ->
    srow S = n -> scol S = n ->
    (forall i j, i < n -> j < n -> stored S i j = stored S j i) ->
    (forall i j v, i < n -> j < n -> stored S i j = Some v ->
       nle n0 v = true /\ (i <> j -> nlt v ninf = true)) ->
    (forall i j, i < n -> j < n -> i <> j -> nlt (sval S i j) (sval S i i) = true) ->
    (forall i, i < n -> m < row_nnz S i) ->
    mp_empiric_sparse S "similarity" TNone m (Ok R) ->
    mp_empiric_full (sdense S) "similarity" TNone = Ok M ->
    forall i j, i < n -> j < n ->
      (i <> j -> stored S i j = None -> stored R i j = None) /\
      (forall v, stored S i j = Some v -> neq v n0 = false -> sval R i j = at2 M i j).
Proof.
  intros S n m R M Hb Hr Hc Hs Hp Hd Hn HR HM i j Hi Hj.
  assert (SL : sim_like S n).
  { constructor; auto. intros a b v Ha Hb' E. now apply (Hp a b). }
  destruct (mpes_spec_xr S _ _ _ _ _ Hb SL HR) as (_ & _ & A1 & A2).
  apply mp_full_inv in HM as (_ & _ & _ & ->).
  split.
  - intros Hne. apply A2; auto.
  - intros v E Hz. rewrite xr_full_at by (simpl; lia).
    destruct (Nat.eqb_spec i j) as [Eq|Hne].
    + subst j. unfold sval. rewrite A1 by assumption. reflexivity.
    + destruct (A2 i j Hi Hj Hne (Hn i Hi) (Hn j Hj)) as (_ & A). 
      rewrite (A v E) by (unfold nonzero; now rewrite Hz).
      assert (EE : at2 (sdense S) (Nat.max i j) (Nat.min i j) = sval S i j).
      { simpl. destruct (Nat.lt_ge_cases i j).
        - rewrite Nat.max_r, Nat.min_l by lia. unfold sval. now rewrite Hs.
        - rewrite Nat.max_l, Nat.min_r by lia. reflexivity. }
      rewrite (mp_pair_sim xr_cmp).
      2:{ lia. }
      2:{ rewrite EE. unfold sval. rewrite E. simpl. now apply (Hp i j v). }
      rewrite EE. cbn [nrow sdense]. rewrite Hr.
      apply xr_compl_frac; [apply count_if_le|lia].
Qed.

(** float64: the stored value, and its distance to the dense one *)
Theorem C12_sparse_close_to_dense_float64 :
  forall (S : smat f64) n m R M, (Z.of_nat n <= 2 ^ 53)%Z ->
    srow S = n -> scol S = n ->
    (forall i j, i < n -> j < n -> stored S i j = stored S j i) ->
    (forall i j v, i < n -> j < n -> stored S i j = Some v ->
       nle n0 v = true /\ (i <> j -> nlt v ninf = true)) ->
    (forall i j, i < n -> j < n -> i <> j -> nlt (sval S i j) (sval S i i) = true) ->
    (forall i, i < n -> m < row_nnz S i) ->
    mp_empiric_sparse S "similarity" TNone m (Ok R) ->
    mp_empiric_full (sdense S) "similarity" TNone = Ok M ->
    forall i j, i < n -> j < n ->
      (i <> j -> stored S i j = None -> stored R i j = None) /\
      (forall v, stored S i j = Some v -> neq v n0 = false ->
         (i <> j -> exists c, c <= n /\
            sval R i j = nsub n1 (ndiv (nofnat (n - c)) (nofnat n)) /\
            at2 M i j = ndiv (nofnat c) (nofnat n)) /\
         (Rabs (B2R (sval R i j) - B2R (at2 M i j)) <= bpow radix2 (-51))%R).
Proof.
  intros S n m R M Hb Hr Hc Hs Hp Hd Hn HR HM i j Hi Hj.
  assert (SL : sim_like S n).
  { constructor; auto. intros a b v Ha Hb' E. now apply (Hp a b). }
  destruct (mpes_spec_f64 S _ _ _ _ _ Hb SL HR) as (_ & _ & A1 & A2).
  apply mp_full_inv in HM as (_ & _ & _ & ->).
  split.
  - intros Hne. apply A2; auto.
  - intros v E Hz.
    assert (Off : i <> j -> exists c, c <= n /\
            sval R i j = nsub n1 (ndiv (nofnat (n - c)) (nofnat n)) /\
            at2 (mp_full_core "similarity" (sdense S)) i j = ndiv (nofnat c) (nofnat n)).
    { intros Hne. rewrite mp_full_at_f64 by (simpl; rewrite ?Hr; assumption || lia).
      apply Nat.eqb_neq in Hne as Hne'. rewrite Hne'.
      destruct (A2 i j Hi Hj Hne (Hn i Hi) (Hn j Hj)) as (_ & A). 
      rewrite (A v E) by (unfold nonzero; now rewrite Hz).
      assert (EE : at2 (sdense S) (Nat.max i j) (Nat.min i j) = sval S i j).
      { simpl. destruct (Nat.lt_ge_cases i j).
        - rewrite Nat.max_r, Nat.min_l by lia. unfold sval. now rewrite Hs.
        - rewrite Nat.max_l, Nat.min_r by lia. reflexivity. }
      rewrite (mp_pair_sim f64_cmp).
      2:{ lia. }
      2:{ rewrite EE. unfold sval. rewrite E. simpl. now apply (Hp i j v). }
      rewrite EE. cbn [nrow sdense]. rewrite Hr.
      eexists. split; [|split; reflexivity]. apply count_if_le. }
    split; [exact Off|].
    destruct (Nat.eq_dec i j) as [Eq|Hne].
    + subst j. rewrite mp_full_at_f64 by (simpl; rewrite ?Hr; assumption).
      rewrite Nat.eqb_refl. unfold sval. rewrite A1 by assumption.
      change (mp_self "similarity") with (n1 (V:=f64)). cbn [oval].
      replace (B2R (n1 (V:=f64)) - B2R (n1 (V:=f64)))%R with 0%R by ring.
      rewrite Rabs_R0. apply bpow_ge_0.
    + destruct (Off Hne) as (c & Hcn & -> & ->). apply frac_compl_close; auto. lia.
Qed.

(** the pool schedule has no influence on the result *)
Theorem C12_sparse_schedule_independent :
  forall (S : smat f64) metric t m R R',
    mp_empiric_sparse S metric t m (Ok R) -> mp_empiric_sparse S metric t m (Ok R') ->
    srow R = srow R' /\ scol R = scol R' /\ forall i j, stored R i j = stored R' i j.
Proof. intros S metric t m R R'. exact (mpes_schedule S metric t m R R'). Qed.

Definition sparse_of (rows : list (list Z)) : smat f64 :=
  SMat (length rows) (length rows)
    (fun i j => match nth j (nth i rows []) 0%Z with Z0 => None | z => Some (f64_ofZ z) end).
Definition exSp : smat f64 := sparse_of [[3;2;1];[2;3;1];[1;1;3]]%Z.
Definition exSpTie : smat f64 := sparse_of [[1;1];[1;1]]%Z.
Definition mpes_serial (S : smat f64) (m : nat) : smat f64 :=
  mpes_assemble S m (run_serial pos_eq (fun _ => n0)
        (map (fun ij => [(ij, mpes_sec_dist S m (fst ij) (snd ij))]) (mpes_tasks S))).

Lemma mpes_serial_ok S m : srow S = scol S ->
  mp_empiric_sparse S "similarity" TNone m (Ok (mpes_serial S m)).
Proof. intros H. apply mpes_ok; auto. apply pool_run_exists. Qed.

(** in float64 the two values are not always bit-identical *)
Theorem C12_float64_not_bit_identical :
  exists (S : smat f64) R M,
    srow S = 3 /\ scol S = 3 /\
    (forall i j, i < 3 -> j < 3 -> stored S i j = stored S j i) /\
    (forall i j v, i < 3 -> j < 3 -> stored S i j = Some v ->
       nle n0 v = true /\ (i <> j -> nlt v ninf = true)) /\
    (forall i j, i < 3 -> j < 3 -> i <> j -> nlt (sval S i j) (sval S i i) = true) /\
    (forall i, i < 3 -> 0 < row_nnz S i) /\
    mp_empiric_sparse S "similarity" TNone 0 (Ok R) /\
    mp_empiric_full (sdense S) "similarity" TNone = Ok M /\
    neq (sval R 0 1) (at2 M 0 1) = false /\ nisfin (sval R 0 1) = true /\ nisfin (at2 M 0 1) = true.
Proof.
  exists exSp, (mpes_serial exSp 0), (mp_full_core "similarity" (sdense exSp)).
  split; [reflexivity|]. split; [reflexivity|].
  split. { intros [|[|[|i]]] [|[|[|j]]] ? ?; try lia; reflexivity. }
  split. { intros [|[|[|i]]] [|[|[|j]]] v ? ? E; try lia; injection E as <-; split; reflexivity. }
  split. { intros [|[|[|i]]] [|[|[|j]]] ? ? ?; try lia; reflexivity. }
  split. { intros [|[|[|i]]] ?; try lia; vm_compute; lia. }
  split; [now apply mpes_serial_ok|]. split; [reflexivity|]. vm_compute. auto.
Qed.

(** an off-diagonal similarity equal to the self similarity: dense 0, sparse 1 *)
Theorem C12_self_tie_witness :
  exists (S : smat f64) R M,
    srow S = 2 /\ scol S = 2 /\
    (forall i j, i < 2 -> j < 2 -> stored S i j = Some n1) /\
    mp_empiric_sparse S "similarity" TNone 0 (Ok R) /\
    mp_empiric_full (sdense S) "similarity" TNone = Ok M /\
    neq (sval R 0 1) n1 = true /\ neq (at2 M 0 1) n0 = true.
Proof.
  exists exSpTie, (mpes_serial exSpTie 0), (mp_full_core "similarity" (sdense exSpTie)).
  split; [reflexivity|]. split; [reflexivity|].
  split. { intros [|[|i]] [|[|j]] ? ?; try lia; reflexivity. }
  split; [now apply mpes_serial_ok|]. split; [reflexivity|]. vm_compute. auto.
Qed.

(** ** C51: objects with at most min_nnz stored similarities keep their original
    rows, and other objects' values towards them are NaN *)
Theorem C51_few_neighbours :
  forall (S : smat f64) n m R,
    srow S = n -> scol S = n ->
    (forall i j, i < n -> j < n -> stored S i j = stored S j i) ->
    mp_empiric_sparse S "similarity" TNone m (Ok R) ->
    forall i j, i < n -> j < n -> i <> j ->
      (row_nnz S i <= m -> stored R i j = stored S i j) /\
      (m < row_nnz S i -> stored S i j = None -> stored R i j = None) /\
      (m < row_nnz S i -> row_nnz S j <= m ->
        forall v, stored S i j = Some v -> neq v n0 = false -> nisnan (sval R i j) = true).
Proof.
  intros S n m R Hr Hc Hs H i j Hi Hj Hne. inversion H as [| | | |data Hsq Hm Ht Hrun]; subst R.
  unfold mpes_assemble, sval. cbn [stored]. apply Nat.eqb_neq in Hne as Hne'. rewrite Hne'.
  split; [|split].
  - intros Hle. apply Nat.leb_le in Hle. now rewrite Hle.
  - intros Hlt E. apply Nat.leb_gt in Hlt. rewrite Hlt. unfold is_stored. now rewrite <- (Hs i j), E.
  - intros Hlt Hle v E Hz. apply Nat.leb_gt in Hlt. apply Nat.leb_le in Hle. rewrite Hlt. unfold is_stored.
    rewrite <- (Hs i j), E by assumption.
    pose proof (mpes_data S m data Hrun) as Hd.
    assert (T : forall a b, a < n -> b < n -> a < b -> stored S a b = Some v -> (row_nnz S a <=? m) || (row_nnz S b <=? m) = true ->
       data (a, b) = nnan /\ data (b, a) = n0).
    { intros a b Ha Hb Hab Eab Hm'. split.
      - rewrite (proj1 (Hd a b)); [unfold mpes_sec_dist; now rewrite Hm'|].
        apply mpes_tasks_in. rewrite Hr, Hc. repeat split; auto; try lia. exists v. split; [assumption|].
        unfold nonzero. now rewrite Hz.
      - apply (proj2 (Hd b a)). intros Hin. apply mpes_tasks_in in Hin. lia. }
    assert (C : (data (i, j) = nnan /\ data (j, i) = n0) \/ (data (i, j) = n0 /\ data (j, i) = nnan)).
    { destruct (Nat.lt_ge_cases i j).
      - left. apply T; auto. now rewrite Hle, orb_true_r.
      - right. destruct (T j i); auto; [lia|now rewrite <- Hs|now rewrite Hle]. }
    destruct C as [(-> & ->)|(-> & ->)]; reflexivity.
Qed.

(** point 2 has one stored similarity; its row is kept, 1's value towards 2 is NaN *)
Example C51_witness :
  let S := SMat 3 3 (fun i j => if (i =? 2) && (j =? 2) then None else if (i =? 0) && (j =? 2) then None
     else if (i =? 2) && (j =? 0) then None else Some (n1 (V:=f64))) in
  exists R, mp_empiric_sparse S "similarity" TNone 1 (Ok R) /\
    row_nnz S 2 = 1 /\ row_nnz S 1 = 3 /\ neq (sval R 2 1) n1 = true /\ nisnan (sval R 1 2) = true /\ nisnan (sval R 0 1) = false.
Proof.
  intros S. exists (mpes_serial S 1). split; [now apply mpes_serial_ok|]. vm_compute. repeat split.
Qed.

(** ** C13 *)
Theorem C13_test_ind_ignored :
  forall (D : arr2 f64) metric,
    (forall l, ~ In (-1)%Z l ->
       mp_empiric_full D metric (TInts l) = mp_empiric_full D metric TNone) /\
    (nrow D = ncol D -> valid_metric metric = true ->
       (forall l, In (-1)%Z l -> mp_empiric_full D metric (TInts l) = Raise NotImplementedError) /\
       (forall l, mp_empiric_full D metric (TBools l) =
          if existsb (fun b => b) l then Raise NotImplementedError
          else mp_empiric_full D metric TNone)).
Proof.
  intros D metric. split; [intros l; apply test_ind_ignored|]. intros Hsq Hm. split.
  - intros l. now apply test_ind_ignored.
  - intros l. now apply test_mask.
Qed.

(* ------------------------------------------------------------------ *)
(** ** Non-vacuity *)
Definition exMD : arr2 f64 :=
  of_rows nnan (map (map f64_ofZ) [[0;1;4;5];[1;0;2;6];[4;2;0;3];[5;6;3;0]]%Z).
Definition exMS : arr2 f64 :=
  of_rows nnan (map (map f64_ofZ) [[9;6;3;2];[6;9;5;1];[3;5;9;4];[2;1;4;9]]%Z).
Definition exMD2 : arr2 f64 :=
  of_rows nnan (map (map f64_ofZ) [[7;10;40;50];[10;7;20;60];[40;20;7;30];[50;60;30;7]]%Z).

Example ex_mp_counts :
  (farther_from_both exMD 4 0 1 (at2 exMD 1 0), farther_from_both exMD 4 0 2 (at2 exMD 2 0),
   at_most_similar_to_both exMS 4 0 1 (at2 exMS 1 0)) = (2, 0, 2).
Proof. vm_compute. reflexivity. Qed.
Example ex_mp_sym : symmetric exMD.
Proof. split; [reflexivity|]. intros [|[|[|[|i]]]] [|[|[|[|j]]]] H H'; simpl in H, H'; try lia; reflexivity. Qed.
Example ex_mp_order : forall i j a b, i < 4 -> j < 4 -> a < 4 -> b < 4 -> i <> j -> a <> b ->
  nlt (at2 exMD i j) (at2 exMD a b) = nlt (at2 exMD2 i j) (at2 exMD2 a b) /\
  nlt (at2 exMD i j) (at2 exMD a b) = nlt (at2 exMS a b) (at2 exMS i j).
Proof.
  intros i j a b Hi Hj Ha Hb. 
  destruct i as [|[|[|[|i]]]]; [| | | |lia]; (destruct j as [|[|[|[|j]]]]; [| | | |lia]);
  (destruct a as [|[|[|[|a]]]]; [| | | |lia]); (destruct b as [|[|[|[|b]]]]; [| | | |lia]);
  intros; try lia; split; reflexivity.
Qed.
Example ex_mp_no_ties : forall a b x, a < 4 -> b < 4 -> x < 4 -> a <> b -> x <> a -> x <> b ->
  neq (at2 exMS a x) (at2 exMS b a) = false /\ neq (at2 exMS b x) (at2 exMS b a) = false.
Proof.
  intros a b x Ha Hb Hx. 
  destruct a as [|[|[|[|a]]]]; [| | | |lia]; (destruct b as [|[|[|[|b]]]]; [| | | |lia]);
  (destruct x as [|[|[|[|x]]]]; [| | | |lia]); intros; try lia; split; reflexivity.
Qed.
Example ex_mp_sample :
  match mp_empiric_sample (of_rows nnan (map (map f64_ofZ) [[0;4];[1;2];[4;0];[5;3]]%Z))
          [0; 2] "distance" (Some [3; 0]) with
  | Ok M => (nrow M, ncol M, neq (at2 M 0 0) n1, neq (at2 M 1 0) n0)
  | Raise _ => (0, 0, false, false) end = (2, 2, true, true).
Proof. vm_compute. reflexivity. Qed.

Print Assumptions C07_mp_distance_formula.
Print Assumptions C07_mp_similarity_formula.
Print Assumptions C08_mp_range.
Print Assumptions C09_mp_distance_order_invariant.
Print Assumptions C09_mp_similarity_order_invariant.
Print Assumptions C10_mp_duality.
Print Assumptions C10_ties_break_duality.
Print Assumptions C11_sample_all_equals_full.
Print Assumptions C11_sample_formula.
Print Assumptions C12_sparse_equals_dense_exact.
Print Assumptions C12_sparse_close_to_dense_float64.
Print Assumptions C12_sparse_schedule_independent.
Print Assumptions C12_float64_not_bit_identical.
Print Assumptions C12_self_tie_witness.
Print Assumptions C51_few_neighbours.
Print Assumptions C13_test_ind_ignored.
