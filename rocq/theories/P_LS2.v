(** Local scaling: radii, worker pools, uniqueness of order statistics. *)
From Coq Require Import String.
From Coq Require Import ZArith Reals Lra List Arith Lia Bool Permutation.
From Verif Require Import Py Num NumT Arr Sort Conc S_Neighbors S_LS M_IO M_Hubness M_SNN M_LS.
From Verif Require Import P_Neighbors P_Hubness P_MPEmpiric P_SNN P_LS.
Import ListNotations.
Local Open Scope nat_scope.

Lemma training_NoDup n t : NoDup (training n t).
Proof. destruct t; [apply NoDup_filter|]; apply seq_NoDup. Qed.
Lemma training_in n t x : In x (training n t) -> x < n.
Proof. destruct t; simpl; rewrite ?filter_In, in_seq; lia. Qed.
Lemma training_eq n t : ls_train n t = training n t.
Proof. reflexivity. Qed.
Lemma others_in {V} (D : arr2 V) n t i x : In x (others D (training n t) i) -> exists j, j < n /\ j <> i /\ x = at2 D i j.
Proof.
  unfold others. intros H. apply in_map_iff in H. destruct H as (j & <- & H). apply filter_In in H.
  destruct H as (H & Hn). exists j. split; [now apply training_in in H|]. split; [|reflexivity].
  intros ->. now rewrite Nat.eqb_refl in Hn.
Qed.
Lemma others_len_lt {V} (D : arr2 V) n t i k : k < length (training n t) -> k <= length (others D (training n t) i).
Proof.
  intros H. destruct (in_dec Nat.eq_dec i (training n t)) as [Hi|Hi].
  - pose proof (others_length D _ i (training_NoDup n t) Hi). lia.
  - unfold others. rewrite map_length, filter_all; [lia|]. intros x Hx. apply negb_true_iff, Nat.eqb_neq. congruence.
Qed.

Section Radius.
  Context {V : Type} {N : Num V} {toX : V -> xr} (CL : CmpLaws V N toX).
  Variable part : list V -> list nat -> list V.
  Hypothesis PO : part_ok part.

  Lemma row_nonan (D : arr2 V) e cols i : NoDup cols -> nisnan e = false ->
    (forall x, In x (others D cols i) -> nisfin x = true) ->
    forall x, In x (map (at2 (fill_diagonal D e) i) cols) -> nisnan x = false.
  Proof.
    intros Hn He Ho x Hx. destruct (row_split D e cols i Hn) as (w & Hp & Hw & _).
    eapply Permutation_in in Hx; [|exact Hp]. apply in_app_iff in Hx. destruct Hx as [Hx|Hx].
    - apply (fin_not_nan CL). now apply Ho.
    - destruct Hw as [-> | ->]; [contradiction|]. destruct Hx as [<-|[]]. assumption.
  Qed.

  Lemma ls_radius_dist (D : arr2 V) cols k i : NoDup cols ->
    (forall x, In x (others D cols i) -> nisfin x = true) -> 0 < k <= length (others D cols i) ->
    exists v, ls_radius part (fill_diagonal D ninf) cols (Z.of_nat k - 1) i = Ok v /\
      kth_smallest (others D cols i) k v.
  Proof.
    intros Hn Ho Hk. destruct (row_split D ninf cols i Hn) as (w & Hp & Hw & _).
    set (l := map (at2 (fill_diagonal D ninf) i) cols) in *.
    assert (Hl : length l = length cols) by apply map_length.
    assert (Hk' : k <= length cols).
    { rewrite <- Hl, (Permutation_length Hp), app_length. lia. }
    unfold ls_radius, np_partition. fold l.
    assert (Lg : kth_legal (length l) [(Z.of_nat k - 1)%Z] = true).
    { unfold kth_legal. simpl. rewrite andb_true_r. apply andb_true_iff. split; [apply Z.leb_le|apply Z.ltb_lt]; lia. }
    assert (En : py_norm (length l) (Z.of_nat k - 1) = k - 1).
    { unfold py_norm. destruct (Z.ltb_spec (Z.of_nat k - 1) 0); lia. }
    rewrite Lg. cbn [bind map]. rewrite <- Hl, En. eexists. split; [reflexivity|].
    eapply (drop_inf CL); [exact Hp| |exact Ho|lia|].
    - intros x Hx. destruct Hw as [-> | ->]; [contradiction|]. now destruct Hx as [<-|[]].
    - replace k with (S (k - 1)) at 1 by lia. apply (part_kth_smallest CL); [|lia|].
      + apply PO. intros x [<-|[]]. lia.
      + apply row_nonan; auto. apply (inf_not_nan CL).
  Qed.

  Lemma ls_radius_sim (D : arr2 V) cols k i : NoDup cols ->
    (forall x, In x (others D cols i) -> nisfin x = true) -> 0 < k <= length (others D cols i) ->
    exists v, ls_radius part (fill_diagonal D nninf) cols (Z.of_nat (length cols) - Z.of_nat k) i = Ok v /\
      kth_largest (others D cols i) k v.
  Proof.
    intros Hn Ho Hk. destruct (row_split D nninf cols i Hn) as (w & Hp & Hw & _).
    set (l := map (at2 (fill_diagonal D nninf) i) cols) in *.
    assert (Hl : length l = length cols) by apply map_length.
    assert (Hk' : k <= length cols).
    { rewrite <- Hl, (Permutation_length Hp), app_length. lia. }
    unfold ls_radius, np_partition. fold l. rewrite <- Hl.
    assert (Lg : kth_legal (length l) [(Z.of_nat (length l) - Z.of_nat k)%Z] = true).
    { unfold kth_legal. cbn [forallb]. rewrite andb_true_r. apply andb_true_iff. split; [apply Z.leb_le|apply Z.ltb_lt]; lia. }
    assert (En : py_norm (length l) (Z.of_nat (length l) - Z.of_nat k) = length l - k).
    { unfold py_norm. destruct (Z.ltb_spec (Z.of_nat (length l) - Z.of_nat k) 0); lia. }
    rewrite Lg. cbn [bind map]. rewrite En. eexists. split; [reflexivity|].
    eapply (drop_ninf CL); [exact Hp| |exact Ho|lia|].
    - intros x Hx. destruct Hw as [-> | ->]; [contradiction|]. now destruct Hx as [<-|[]].
    - apply (part_kth_largest CL); [|lia|].
      + apply PO. intros x [<-|[]]. lia.
      + apply row_nonan; auto. apply (ninf_not_nan CL).
  Qed.

  Lemma zarange_seq n k : map (py_norm n) (zarange 0 (Z.of_nat k)) = seq 0 k.
  Proof.
    unfold zarange. rewrite Z.sub_0_r, Nat2Z.id, map_map.
    rewrite <- (map_id (seq 0 k)) at 2. apply map_ext. intros a. unfold py_norm.
    destruct (Z.ltb_spec (0 + Z.of_nat a) 0); lia.
  Qed.

  Lemma nicdm_radius_spec vsum (D : arr2 V) cols k i : NoDup cols ->
    (forall x, In x (others D cols i) -> nisfin x = true) -> k <= length (others D cols i) ->
    exists s, nicdm_radius vsum part (fill_diagonal D ninf) cols (Z.of_nat k) i = Ok (vmean vsum s) /\
      k_smallest (others D cols i) k s /\ forall x, In x s -> In x (others D cols i).
  Proof.
    intros Hn Ho Hk. destruct (row_split D ninf cols i Hn) as (w & Hp & Hw & _).
    set (l := map (at2 (fill_diagonal D ninf) i) cols) in *.
    assert (Hl : length l = length cols) by apply map_length.
    assert (Hk' : k <= length cols).
    { rewrite <- Hl, (Permutation_length Hp), app_length. lia. }
    unfold nicdm_radius, np_partition. fold l.
    assert (Lg : kth_legal (length l) (zarange 0 (Z.of_nat k)) = true).
    { unfold kth_legal, zarange. apply forallb_forall. intros z Hz. apply in_map_iff in Hz.
      destruct Hz as (a & <- & Ha). apply in_seq in Ha. apply andb_true_iff. split; [apply Z.leb_le|apply Z.ltb_lt]; lia. }
    rewrite Lg. cbn [bind]. rewrite zarange_seq, prefix_nat.
    exists (firstn k (part l (seq 0 k))). split; [reflexivity|].
    eapply (k_smallest_drop_inf CL); [exact Hp|exact Hw|exact Ho|exact Hk|].
    apply (part_k_smallest CL); [|lia]. apply PO. intros x Hx. apply in_seq in Hx. lia.
  Qed.
End Radius.

(** ** worker pools *)
Lemma celleq_spec a b : celleq a b = true <-> a = b.
Proof.
  destruct a as [a1 a2], b as [b1 b2]. unfold celleq. simpl. rewrite andb_true_iff, !Nat.eqb_eq. split; [intros (-> & ->); reflexivity|intros E; injection E; auto].
Qed.

Section Pools.
  Context {V : Type} {N : Num V}.
  Variables (vexp vln : V -> V) (vsum : list V -> V).
  Variable part : list V -> list nat -> list V.

  Lemma pool_radii (rs : nat -> V) n r :
    pool_run Nat.eqb (fun _ => n0) (map (fun i => [(i, rs i)]) (seq 0 n)) r -> forall i, i < n -> r i = rs i.
  Proof.
    intros H i Hi. apply (fun F => proj1 (pool_run_fun Nat.eqb Nat.eqb_eq _ r _ rs F H i)).
    - intros t c v Ht Hin. apply in_map_iff in Ht. destruct Ht as (x & <- & _). destruct Hin as [E|[]]. now injection E as <- <-.
    - exists [(i, rs i)]. split; [|now left]. apply in_map_iff. exists i. split; [reflexivity|]. apply in_seq. lia.
  Qed.

  (** tasks that mirror the slice [i, i+c:] into the column *)
  Definition mirror_task c n (f : nat -> nat -> V) i : list (cell * V) :=
    map (fun j => ((i, j), f i j)) (seq (i + c) (n - (i + c))) ++
    map (fun j => ((j, i), f i j)) (seq (i + c) (n - (i + c))).

  Lemma pool_mirror c n f data :
    pool_run celleq (fun _ => n0) (map (mirror_task c n f) (seq 0 n)) data ->
    forall i j, i < n -> j < n -> data (i, j) =
      if Nat.min i j + c <=? Nat.max i j then f (Nat.min i j) (Nat.max i j) else n0.
  Proof.
    intros H i j Hi Hj.
    destruct (fun F => pool_run_fun celleq celleq_spec _ data _
      (fun ab => f (Nat.min (fst ab) (snd ab)) (Nat.max (fst ab) (snd ab))) F H (i, j)) as (H1 & H2).
    - intros t cc v Ht Hin. apply in_map_iff in Ht. destruct Ht as (x & <- & Hx).
      unfold mirror_task in Hin. apply in_app_iff in Hin.
      destruct Hin as [Hin|Hin]; apply in_map_iff in Hin; destruct Hin as (y & E & Hy); injection E as <- <-;
        apply in_seq in Hy; cbn [fst snd].
      + now rewrite Nat.min_l, Nat.max_r by lia.
      + now rewrite Nat.min_r, Nat.max_l by lia.
    - cbn [fst snd] in H1, H2. destruct (Nat.leb_spec (Nat.min i j + c) (Nat.max i j)) as [Hc|Hc].
      + apply H1. exists (mirror_task c n f (Nat.min i j)). split.
        * apply in_map_iff. exists (Nat.min i j). split; [reflexivity|]. apply in_seq. lia.
        * unfold mirror_task. apply in_app_iff. destruct (Nat.le_ge_cases i j).
          -- left. rewrite Nat.min_l, Nat.max_r in * by lia. apply in_map_iff. exists j. split; [reflexivity|]. apply in_seq. lia.
          -- right. rewrite Nat.min_r, Nat.max_l in * by lia. apply in_map_iff. exists i. split; [reflexivity|]. apply in_seq. lia.
      + apply H2. intros t v Ht Hin. apply in_map_iff in Ht. destruct Ht as (x & <- & Hx).
        unfold mirror_task in Hin. apply in_app_iff in Hin.
        destruct Hin as [Hin|Hin]; apply in_map_iff in Hin; destruct Hin as (y & E & Hy); injection E as E1 E2 _;
          apply in_seq in Hy; subst; lia.
  Qed.

  Lemma ls_pool_at (D : arr2 V) metric rs r data :
    pool_run Nat.eqb (fun _ => n0) (map (fun i => [(i, nth i rs nnan)]) (seq 0 (nrow D))) r ->
    pool_run celleq (fun _ => n0)
        (map (ls_task vexp metric (fill_diagonal D (ls_exclude metric)) (nrow D) r) (seq 0 (nrow D))) data ->
    forall i j, i < nrow D -> j < nrow D -> i <> j -> data (i, j) =
      ls_cell vexp metric D (fun a => nth a rs nnan) (Nat.min i j) (Nat.max i j).
  Proof.
    intros H1 H2 i j Hi Hj Hne. pose proof (pool_radii (fun i => nth i rs nnan) _ _ H1) as Hr.
    set (f := fun i j => if j =? i then ls_self_tmp metric
        else ls_val vexp metric (at2 (fill_diagonal D (ls_exclude metric)) i j) (r i) (r j)).
    assert (H3 : pool_run celleq (fun _ => n0) (map (mirror_task 0 (nrow D) f) (seq 0 (nrow D))) data).
    { replace (map (mirror_task 0 (nrow D) f) (seq 0 (nrow D))) with
        (map (ls_task vexp metric (fill_diagonal D (ls_exclude metric)) (nrow D) r) (seq 0 (nrow D))); [assumption|].
      apply map_ext. intros a. unfold ls_task, mirror_task, f. now rewrite Nat.add_0_r. }
    rewrite (pool_mirror _ _ _ _ H3 i j Hi Hj). replace (Nat.min i j + 0 <=? Nat.max i j) with true by (symmetry; apply Nat.leb_le; lia).
    unfold f, ls_cell. cbn [fill_diagonal at2].
    destruct (Nat.eqb_spec (Nat.max i j) (Nat.min i j)); [lia|].
    destruct (Nat.eqb_spec (Nat.min i j) (Nat.max i j)); [lia|]. now rewrite !Hr by lia.
  Qed.

  Lemma nicdm_pool_at (D : arr2 V) rs r data : length rs = nrow D ->
    pool_run Nat.eqb (fun _ => n0) (map (fun i => [(i, nth i rs nnan)]) (seq 0 (nrow D))) r ->
    pool_run celleq (fun _ => n0)
        (map (nicdm_task (local_geomean vexp vln vsum (map r (seq 0 (nrow D)))) (fill_diagonal D ninf) (nrow D) r)
             (seq 0 (nrow D))) data ->
    forall i j, i < nrow D -> j < nrow D -> data (i, j) =
      if i =? j then n0 else
      nicdm_cell (local_geomean vexp vln vsum rs) D (fun a => nth a rs nnan) (Nat.min i j) (Nat.max i j).
  Proof.
    intros HL H1 H2 i j Hi Hj. pose proof (pool_radii (fun i => nth i rs nnan) _ _ H1) as Hr.
    assert (Er : map r (seq 0 (nrow D)) = rs).
    { apply (nth_ext _ _ nnan nnan); [now rewrite map_length, seq_length|].
      intros a Ha. rewrite map_length, seq_length in Ha. rewrite nth_map_seq by assumption. now apply Hr. }
    rewrite Er in H2.
    set (f := fun i j => nicdm_val (local_geomean vexp vln vsum rs) (at2 (fill_diagonal D ninf) i j) (r i) (r j)).
    assert (H3 : pool_run celleq (fun _ => n0) (map (mirror_task 1 (nrow D) f) (seq 0 (nrow D))) data) by exact H2.
    rewrite (pool_mirror _ _ _ _ H3 i j Hi Hj). destruct (Nat.eqb_spec i j) as [->|Hne].
    - rewrite Nat.min_id, Nat.max_id. replace (j + 1 <=? j) with false by (symmetry; apply Nat.leb_gt; lia). reflexivity.
    - replace (Nat.min i j + 1 <=? Nat.max i j) with true by (symmetry; apply Nat.leb_le; lia).
      unfold f, nicdm_cell. cbn [fill_diagonal at2].
      destruct (Nat.eqb_spec (Nat.min i j) (Nat.max i j)); [lia|]. now rewrite !Hr by lia.
  Qed.

  (** what every successful call returns; [w] is [v], [v + 0] or [0 + v] *)
  Definition maybe0 (v w : V) : Prop := w = v \/ w = nadd v n0 \/ w = nadd n0 v.

  Lemma ls_outcome (D : arr2 V) k metric test cpu nj res :
    (1 <= workers cpu nj)%Z ->
    local_scaling vexp part D k metric test cpu nj res ->
    match ls_radii part D k metric test with
    | Raise e => res = Raise e
    | Ok rs => exists L, res = Ok L /\ nrow L = nrow D /\ ncol L = nrow D /\
        forall i j, i < nrow D -> j < nrow D ->
          (i = j -> at2 L i j = ls_self metric) /\
          (i <> j -> maybe0 (ls_cell vexp metric D (fun a => nth a rs nnan) (Nat.min i j) (Nat.max i j)) (at2 L i j))
    end.
  Proof.
    intros Hw H. unfold workers in Hw. destruct H as [Hj|Hj|e Hj He|rs r data Hj Hrs H1 H2].
    - destruct (ls_radii part D k metric test) as [rs|e] eqn:E.
      + destruct (ls_serial_at vexp part D k metric test rs E) as (L & EL & L1 & L2 & HL).
        exists L. repeat split; auto; intros Hne; rewrite HL by assumption.
        * apply Nat.eqb_eq in Hne. now rewrite Hne.
        * apply Nat.eqb_neq in Hne as Hne'. rewrite Hne'. unfold maybe0. destruct (Nat.ltb_spec i j).
          -- rewrite Nat.min_l, Nat.max_r by lia. auto.
          -- rewrite Nat.min_r, Nat.max_l by lia. auto.
      + unfold local_scaling_serial. now rewrite E.
    - lia.
    - now rewrite He.
    - rewrite Hrs. eexists. split; [reflexivity|]. cbn [fill_diagonal nrow ncol at2].
      split; [reflexivity|]. split; [reflexivity|]. intros i j Hi Hj'. split.
      + intros ->. now rewrite Nat.eqb_refl.
      + intros Hne. apply Nat.eqb_neq in Hne as Hne'. rewrite Hne'. left. now apply (ls_pool_at D metric rs r).
  Qed.

  Lemma nicdm_outcome (D : arr2 V) k metric test cpu nj res :
    nicdm vexp vln vsum part D k metric test cpu nj res ->
    match nicdm_radii vsum part D k metric test with
    | Raise e => res = Raise e
    | Ok rs => exists L, res = Ok L /\ nrow L = nrow D /\ ncol L = nrow D /\
        forall i j, i < nrow D -> j < nrow D ->
          (i = j -> maybe0 n0 (at2 L i j)) /\
          (i <> j -> maybe0 (nicdm_cell (local_geomean vexp vln vsum rs) D (fun a => nth a rs nnan) (Nat.min i j) (Nat.max i j)) (at2 L i j))
    end.
  Proof.
    intros H. destruct H as [Hj|e Hj He|rs r data Hj Hrs H1 H2].
    - destruct (nicdm_radii vsum part D k metric test) as [rs|e] eqn:E.
      + destruct (nicdm_serial_at vexp vln vsum part D k metric test rs E) as (L & EL & L1 & L2 & HL).
        exists L. repeat split; auto; intros Hne; rewrite HL by assumption.
        * apply Nat.eqb_eq in Hne. rewrite Hne. right. now left.
        * apply Nat.eqb_neq in Hne as Hne'. rewrite Hne'. unfold maybe0. destruct (Nat.ltb_spec i j).
          -- rewrite Nat.min_l, Nat.max_r by lia. auto.
          -- rewrite Nat.min_r, Nat.max_l by lia. auto.
      + unfold nicdm_serial. now rewrite E.
    - now rewrite He.
    - rewrite Hrs. eexists. split; [reflexivity|]. cbn [nrow ncol at2].
      split; [reflexivity|]. split; [reflexivity|]. intros i j Hi Hj'.
      assert (HL : length rs = nrow D) by now apply nicdm_radii_inv in Hrs.
      rewrite (nicdm_pool_at D rs r data HL H1 H2) by assumption. split.
      + intros ->. rewrite Nat.eqb_refl. now left.
      + intros Hne. apply Nat.eqb_neq in Hne as Hne'. rewrite Hne'. now left.
  Qed.
End Pools.
