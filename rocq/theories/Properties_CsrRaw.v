(** C168: sparse matrices whose column indices are not in ascending order. *)
From Coq Require Import String.
From Coq Require Import ZArith List Arith Lia Bool Sorted Permutation.
From Verif Require Import Py Num Arr Conc S_Neighbors M_IO M_MPEmpiric M_CsrRaw S_CsrRaw P_CsrRaw P_LS3.
Import ListNotations.

Lemma pos_eq_spec a b : pos_eq a b = true <-> a = b.
Proof.
  destruct a as [a a'], b as [b b']. unfold pos_eq. cbn. rewrite andb_true_iff, !Nat.eqb_eq.
  split; [intros (-> & ->); reflexivity|intros [= -> ->]; auto].
Qed.

(** Every call ends, for any matrix and whatever searchsorted answers. *)
Theorem C168_total :
  forall {V} {N : Num V} search (S : csr V) metric test min_nnz,
    exists r S', mpes_csr search S metric test min_nnz r S'.
Proof.
  intros V N search S metric test min_nnz.
  destruct (Nat.eq_dec (length (c_idx S)) (c_cols S)) as [Sq|Sq]; [|eexists; eexists; apply raw_shape; exact Sq].
  destruct (check_valid_metric_parameter metric) as [[]|e] eqn:M; [|eexists; eexists; apply raw_metric; eassumption].
  destruct (string_dec metric "distance") as [D|D]; [eexists; eexists; apply raw_dist; assumption|].
  assert (E : metric = "similarity"%string).
  { unfold check_valid_metric_parameter, guard, is_dist, is_sim in M.
    destruct (string_dec metric "similarity") as [|D']; [assumption|exfalso].
    apply String.eqb_neq in D, D'. rewrite D, D' in M. discriminate. }
  destruct (test_ind_rejected test) eqn:T; [eexists; eexists; apply raw_test; assumption|].
  destruct (existsb (fun ij => size S <=? data_idx search S ij) (csr_tasks S)) eqn:X.
  - apply existsb_exists in X as (ij & Hin & L). apply Nat.leb_le in L. eexists; eexists. now apply (raw_index search S metric test min_nnz ij).
  - eexists; eexists. apply raw_ok; auto; [|apply pool_run_exists].
    intros ij Hin. destruct (Nat.lt_ge_cases (data_idx search S ij) (size S)) as [|L]; [assumption|].
    assert (F : existsb (fun ij => size S <=? data_idx search S ij) (csr_tasks S) = true).
    { apply existsb_exists. exists ij. split; [assumption|]. now apply Nat.leb_le. }
    congruence.
Qed.

(** Ascending columns: the caller's matrix stays as it is, and the outcome is
    that of the computation on the matrix as a function of its cells (the one
    all other properties of sparse Mutual Proximity are about). *)
Theorem C168_ascending_columns :
  forall {V} {N : Num V} search (S S' : csr V) metric test min_nnz r,
    search_ok search -> csr_ok S -> (forall i, ascending_columns S i) ->
    mpes_csr search S metric test min_nnz r S' ->
    S' = S /\ exists r', mp_empiric_sparse (csr_read S) metric test min_nnz r' /\ same_outcome r r'.
Proof.
  intros V N search S S' metric test min_nnz r SO OK As H.
  pose proof (sorted_read_id S OK As) as Id.
  destruct H as [Sq|e Sq M|Sq D|Sq D T|ij Sq D T Hin L|data Sq D T L P].
  - split; [reflexivity|]. exists (Raise TypeError). split; [now apply mpes_shape|reflexivity].
  - split; [reflexivity|]. exists (Raise e). split; [now apply mpes_metric|reflexivity].
  - split; [reflexivity|]. exists (Raise ValueError). split; [now apply mpes_dist|reflexivity].
  - split; [reflexivity|]. exists (Raise NotImplementedError). split; [now apply mpes_test|reflexivity].
  - exfalso. destruct ij as [i j]. apply (csr_tasks_in S OK) in Hin as (_ & v & E & _). cbn in E.
    apply assoc_find in E as (p & A & _). rewrite (data_idx_pos search S i j p SO (As i) A) in L.
    assert (p < length (nth i (c_idx S) [])) by (apply nth_error_Some; congruence).
    pose proof (start_lt S i p H). lia.
  - split; [exact Id|]. eexists. split; [apply mpes_ok; auto; apply pool_run_exists|].
    set (data' := run_serial _ _ _). cbn [same_outcome csr_assemble mpes_assemble srow scol stored csr_read].
    split; [reflexivity|]. split; [reflexivity|]. intros i j Hi Hj. rewrite Id.
    destruct (i =? j); [reflexivity|].
    rewrite (row_nnz_length S OK i). destruct (length (nth i (c_idx S) []) <=? min_nnz); [reflexivity|].
    assert (CELL : forall a b,
      assoc b (combine (nth a (c_idx S) []) (map (fun p => data (start S a + p)) (seq 0 (length (nth a (c_idx S) []))))) =
      (if is_stored (csr_read S) a b then Some (data' (a, b)) else None)).
    { intros a b. unfold is_stored. destruct (stored (csr_read S) a b) as [v|] eqn:E.
      - pose proof E as E0. cbn in E0. apply assoc_find in E0 as (p & A & B).
        assert (Lp : p < length (nth a (c_idx S) [])) by (apply nth_error_Some; congruence).
        rewrite (assoc_pos _ _ p b (data (start S a + p))); [|apply (co_once S OK)|assumption|].
        2:{ rewrite nth_error_map. rewrite (nth_error_nth' _ 0) by (rewrite seq_length; assumption).
            cbn. rewrite seq_nth by assumption. reflexivity. }
        f_equal. destruct (nonzero v) eqn:NZ; [destruct (le_lt_dec a b) as [Lab|Lab]|].
        + assert (T1 : In (a, b) (csr_tasks S)) by (apply (csr_tasks_in S OK); split; [assumption|now exists v]).
          pose proof (proj2 (mpes_tasks_in S OK a b) T1) as T2.
          transitivity (mpes_sec_dist (csr_read S) min_nnz a b); [|symmetry].
          * apply (pool_cell Nat.eqb Nat.eqb_eq _ _ _ _ _ P).
            -- exists (csr_write search S min_nnz (a, b)). split; [now apply in_map|].
               unfold csr_write. rewrite (data_idx_pos search S a b p SO (As a) A). now left.
            -- intros t v' Ht Hv. apply in_map_iff in Ht as ([a' b'] & <- & Ht). destruct Hv as [Hv|[]].
               apply pair_equal_spec in Hv as (Hv & <-).
               apply (csr_tasks_in S OK) in Ht as (_ & v2 & E2 & _). cbn in E2. apply assoc_find in E2 as (p' & A' & _).
               rewrite (data_idx_pos search S a' b' p' SO (As a') A') in Hv.
               apply start_inj in Hv as (-> & ->); [|apply nth_error_Some; congruence|assumption].
               cbn. congruence.
          * apply (pool_cell pos_eq pos_eq_spec _ _ _ _ _ (pool_run_exists pos_eq _ _)).
            -- exists [((a, b), mpes_sec_dist (csr_read S) min_nnz a b)]. split; [|now left].
               apply in_map_iff. now exists (a, b).
            -- intros t v' Ht Hv. apply in_map_iff in Ht as ([a' b'] & <- & Ht). destruct Hv as [Hv|[]].
               apply pair_equal_spec in Hv as (Hv & <-). apply pair_equal_spec in Hv as (-> & ->). reflexivity.
        + assert (NT : ~ In (a, b) (csr_tasks S)) by (intros T1; apply (csr_tasks_in S OK) in T1 as (? & _); lia).
          transitivity (n0 (V:=V)); [|symmetry].
          * apply (pool_cell_zero Nat.eqb Nat.eqb_eq _ _ _ _ P).
            intros t v' Ht Hv. apply in_map_iff in Ht as ([a' b'] & <- & Ht). destruct Hv as [Hv|[]].
            apply pair_equal_spec in Hv as (Hv & _). pose proof Ht as Ht0.
            apply (csr_tasks_in S OK) in Ht as (_ & v2 & E2 & _). cbn in E2. apply assoc_find in E2 as (p' & A' & _).
            rewrite (data_idx_pos search S a' b' p' SO (As a') A') in Hv.
            apply start_inj in Hv as (-> & ->); [|apply nth_error_Some; congruence|assumption].
            apply NT. rewrite A in A'. injection A' as <-. exact Ht0.
          * apply (pool_cell_zero pos_eq pos_eq_spec _ _ _ _ (pool_run_exists pos_eq _ _)).
            intros t v' Ht Hv. apply in_map_iff in Ht as ([a' b'] & <- & Ht). destruct Hv as [Hv|[]].
            apply pair_equal_spec in Hv as (Hv & _). apply pair_equal_spec in Hv as (-> & ->).
            apply NT. now apply (mpes_tasks_in S OK).
        + assert (NT : ~ In (a, b) (csr_tasks S)).
          { intros T1; apply (csr_tasks_in S OK) in T1 as (_ & v2 & E2 & F2). congruence. }
          transitivity (n0 (V:=V)); [|symmetry].
          * apply (pool_cell_zero Nat.eqb Nat.eqb_eq _ _ _ _ P).
            intros t v' Ht Hv. apply in_map_iff in Ht as ([a' b'] & <- & Ht). destruct Hv as [Hv|[]].
            apply pair_equal_spec in Hv as (Hv & _). pose proof Ht as Ht0.
            apply (csr_tasks_in S OK) in Ht as (_ & v2 & E2 & _). cbn in E2. apply assoc_find in E2 as (p' & A' & _).
            rewrite (data_idx_pos search S a' b' p' SO (As a') A') in Hv.
            apply start_inj in Hv as (-> & ->); [|apply nth_error_Some; congruence|assumption].
            apply NT. rewrite A in A'. injection A' as <-. exact Ht0.
          * apply (pool_cell_zero pos_eq pos_eq_spec _ _ _ _ (pool_run_exists pos_eq _ _)).
            intros t v' Ht Hv. apply in_map_iff in Ht as ([a' b'] & <- & Ht). destruct Hv as [Hv|[]].
            apply pair_equal_spec in Hv as (Hv & _). apply pair_equal_spec in Hv as (-> & ->).
            apply NT. now apply (mpes_tasks_in S OK).
      - apply assoc_none; [rewrite map_length, seq_length; reflexivity|]. intros Hin.
        apply In_nth_error in Hin as (p & A). destruct (pos_val S OK a p b A) as (v & B).
        rewrite (read_pos S OK a p b v A B) in E. discriminate. }
    cbn zeta. now rewrite !CELL.
Qed.

(** The caller's matrix after the call.  An exception leaves it alone.  After a
    result, the columns of every row have been put into ascending order while
    the values stayed where they were: the value stored p-th now belongs to the
    p-th smallest column. *)
Theorem C168_callers_matrix :
  forall {V} {N : Num V} search (S S' : csr V) metric test min_nnz r,
    csr_ok S -> mpes_csr search S metric test min_nnz r S' ->
    (forall e, r = Raise e -> S' = S) /\
    (forall M, r = Ok M -> csr_ok S' /\
       forall i, ascending_columns S' i /\ nth i (c_dat S') [] = nth i (c_dat S) [] /\
         Permutation (nth i (c_idx S') []) (nth i (c_idx S) []) /\
         forall p j v, nth_error (nth i (c_idx S') []) p = Some j -> nth_error (nth i (c_dat S) []) p = Some v ->
           stored (csr_read S') i j = Some v).
Proof.
  intros V N search S S' metric test min_nnz r OK H.
  assert (G : csr_ok (csr_sorted S) /\ forall i, nth i (c_idx (csr_sorted S)) [] = put_all (nth i (c_idx S) [])).
  { assert (E : forall i, nth i (c_idx (csr_sorted S)) [] = put_all (nth i (c_idx S) [])).
    { intros i. cbn. change (@nil nat) with (put_all []) at 1. apply map_nth. }
    split; [|exact E]. split.
    - cbn. rewrite map_length. apply (co_rows S OK).
    - intros i. rewrite E. cbn. rewrite put_all_length. apply (co_vals S OK).
    - intros i. rewrite E. apply (Permutation_NoDup (Permutation_sym (put_all_perm _))). apply (co_once S OK).
    - intros i j Hj. rewrite E in Hj. cbn. apply (co_cols S OK i). now apply (Permutation_in _ (put_all_perm _)). }
  destruct G as (OK' & E).
  split.
  - intros e ->. now inversion H.
  - intros M ->. inversion H; subst. split; [exact OK'|]. intros i.
    split; [unfold ascending_columns; rewrite E; apply put_all_sorted, (co_once S OK)|].
    split; [reflexivity|]. split; [rewrite E; apply put_all_perm|].
    intros p j v A B. now apply (read_pos _ OK' i p).
Qed.

(** DEFECT: so a row whose columns are not in ascending order, and whose values
    differ, has wrong values afterwards. *)
Theorem C168_matrix_is_corrupted :
  forall {V} {N : Num V} search (S S' : csr V) metric test min_nnz M i,
    csr_ok S -> mpes_csr search S metric test min_nnz (Ok M) S' ->
    ~ ascending_columns S i -> NoDup (nth i (c_dat S) []) ->
    exists j, In j (nth i (c_idx S) []) /\ stored (csr_read S') i j <> stored (csr_read S) i j.
Proof.
  intros V N search S S' metric test min_nnz M i OK H NA ND.
  destruct (C168_callers_matrix search S S' metric test min_nnz (Ok M) OK H) as (_ & G).
  destruct (G M eq_refl) as (OK' & G'). destruct (G' i) as (As & Ed & P & W). clear G G'.
  assert (X : exists p j j', nth_error (nth i (c_idx S) []) p = Some j /\ nth_error (nth i (c_idx S') []) p = Some j' /\ j <> j').
  { unfold ascending_columns in *. revert NA As P. generalize (nth i (c_idx S) []) as l, (nth i (c_idx S') []) as l'.
    intros l l' NA As P. assert (NE : l <> l') by congruence. apply Permutation_length in P. clear NA As.
    revert l' P NE. induction l as [|x l IH]; intros [|y l'] P NE; cbn in P; try discriminate; [congruence|].
    destruct (Nat.eq_dec x y) as [->|Hxy]; [|exists 0, x, y; auto].
    destruct (IH l' ltac:(lia) ltac:(congruence)) as (p & j & j' & Q). now exists (Datatypes.S p), j, j'. }
  destruct X as (p & j & j' & A & B & Hne).
  assert (Hin : In j' (nth i (c_idx S) [])) by (apply (Permutation_in _ P), (nth_error_In _ _ B)).
  exists j'. split; [assumption|].
  destruct (pos_val S OK i p j A) as (v & Bv). rewrite (W p j' v B Bv).
  apply In_nth_error in Hin as (q & Q). destruct (pos_val S OK i q j' Q) as (w & Bw).
  rewrite (read_pos S OK i q j' w Q Bw). intros [= ->].
  assert (p = q).
  { apply (proj1 (NoDup_nth_error _) ND); [apply nth_error_Some; congruence|congruence]. }
  subst. congruence.
Qed.

(** ... and so have the rows that the result takes over from it: those with at
    most min_nnz entries. *)
Theorem C168_retained_rows :
  forall {V} {N : Num V} search (S S' : csr V) metric test min_nnz M i j,
    mpes_csr search S metric test min_nnz (Ok M) S' ->
    length (nth i (c_idx S) []) <= min_nnz -> i <> j ->
    stored M i j = stored (csr_read S') i j.
Proof.
  intros V N search S S' metric test min_nnz M i j H L Hne. inversion H; subst. cbn [csr_assemble stored].
  apply Nat.eqb_neq in Hne. rewrite Hne. apply Nat.leb_le in L. now rewrite L.
Qed.

(** ** concrete matrices *)
Definition q (a b : Z) : f64 := ndiv (nofZ a) (nofZ b).
(** four objects; only row 0 has its columns in descending order *)
Definition rawS : csr f64 := Csr 4
  [[3; 2; 1; 0]; [0; 1; 2; 3]; [0; 1; 2; 3]; [0; 1; 2; 3]]
  [[q 1 4; q 3 4; q 1 2; q 1 1]; [q 1 2; q 1 1; q 1 8; q 1 16]; [q 3 4; q 1 8; q 1 1; q 1 32]; [q 1 4; q 1 16; q 1 32; q 1 1]].

Lemma rawS_ok : csr_ok rawS.
Proof.
  assert (C : forall P : nat -> Prop, P 0 -> P 1 -> P 2 -> P 3 -> (forall i, P (4 + i)) -> forall i, P i).
  { intros P A B C0 D E [|[|[|[|i]]]]; auto. apply (E i). }
  split.
  - reflexivity.
  - apply C; try reflexivity. intros i. cbn. destruct i; reflexivity.
  - apply C; try (cbn; repeat constructor; cbn; lia). intros i. cbn. destruct i; constructor.
  - intros i j. revert i. apply (C (fun i => In j (nth i (c_idx rawS) []) -> j < 4)); [(intros H; cbn in H; intuition lia)..|].
    intros i H. rewrite nth_overflow in H by (cbn; lia). destruct H.
Qed.

Definition same_cell (a b : option f64) : bool :=
  match a, b with Some x, Some y => neq x y | None, None => true | _, _ => false end.

(** DEFECT: even where no row is taken over, similarities get lost: for every
    schedule, the result stores nothing for objects 0 and 2, although their
    Mutual Proximity is positive. *)
Theorem C168_similarity_lost :
  (forall M S', mpes_csr np_search rawS "similarity" TNone 0 (Ok M) S' -> stored M 0 2 = None) /\
  (forall M, mp_empiric_sparse (csr_read rawS) "similarity" TNone 0 (Ok M) ->
     exists v, stored M 0 2 = Some v /\ nlt n0 v = true).
Proof.
  split.
  - intros M S' H. inversion H as [| | | | |data Sq D T L P]; subst.
    assert (Z : forall c, c = 1 \/ c = 8 -> data c = n0).
    { intros c Hc. apply (pool_cell_zero Nat.eqb Nat.eqb_eq _ _ _ _ P). intros t v Ht Hv.
      apply in_map_iff in Ht as (ij & <- & Ht). destruct Hv as [Hv|[]]. apply pair_equal_spec in Hv as (Hv & _).
      assert (F : forallb (fun ij => negb (data_idx np_search rawS ij =? 1) && negb (data_idx np_search rawS ij =? 8)) (csr_tasks rawS) = true)
        by (vm_compute; reflexivity).
      rewrite forallb_forall in F. specialize (F ij Ht). rewrite Hv in F. destruct Hc as [-> | ->]; discriminate F. }
    cbn [csr_assemble stored]. change (0 =? 2) with false. cbv iota.
    change (length (nth 0 (c_idx rawS) []) <=? 0) with false. cbv iota.
    change (sp_plus (Some (data 1)) (Some (data 8)) = None). rewrite !Z by auto. unfold sp_plus. cbn [oval].
    assert (E : nonzero (nadd (n0 (V:=f64)) n0) = false) by (vm_compute; reflexivity). now rewrite E.
  - intros M H. inversion H as [| | | |data Sq D T P]; subst.
    assert (A : data (0, 2) = mpes_sec_dist (csr_read rawS) 0 0 2).
    { apply (pool_cell pos_eq pos_eq_spec _ _ _ _ _ P).
      - exists [((0, 2), mpes_sec_dist (csr_read rawS) 0 0 2)]. split; [|now left].
        apply in_map_iff. exists (0, 2). split; [reflexivity|]. apply (mpes_tasks_in rawS rawS_ok).
        apply (csr_tasks_in rawS rawS_ok). split; [lia|]. exists (q 3 4). split; [reflexivity|vm_compute; reflexivity].
      - intros t v' Ht Hv. apply in_map_iff in Ht as (ij & <- & Ht). destruct Hv as [Hv|[]].
        apply pair_equal_spec in Hv as (-> & <-). reflexivity. }
    assert (B : data (2, 0) = n0).
    { apply (pool_cell_zero pos_eq pos_eq_spec _ _ _ _ P). intros t v' Ht Hv.
      apply in_map_iff in Ht as (ij & <- & Ht). destruct Hv as [Hv|[]]. apply pair_equal_spec in Hv as (-> & _).
      apply (mpes_tasks_in rawS rawS_ok), (csr_tasks_in rawS rawS_ok) in Ht as (? & _). lia. }
    exists (nadd (data (0, 2)) (data (2, 0))).
    assert (E : row_nnz (csr_read rawS) 0 <=? 0 = false) by (vm_compute; reflexivity).
    cbn [mpes_assemble stored]. change (0 =? 2) with false. cbv iota. rewrite E.
    change (is_stored (csr_read rawS) 0 2) with true. change (is_stored (csr_read rawS) 2 0) with true. cbv iota.
    unfold sp_plus. cbn [oval]. rewrite A, B.
    assert (F : nonzero (nadd (mpes_sec_dist (csr_read rawS) 0 0 2) n0) && nlt n0 (nadd (mpes_sec_dist (csr_read rawS) 0 0 2) n0) = true)
      by (vm_compute; reflexivity).
    apply andb_prop in F as (F1 & F2). rewrite F1. split; [reflexivity|exact F2].
Qed.

(** non-vacuity: the matrix meets the hypotheses of [C168_matrix_is_corrupted]
    and a call on it returns; a matrix with ascending columns exists too *)
Example C168_case :
  csr_ok rawS /\ ~ ascending_columns rawS 0 /\ NoDup (nth 0 (c_dat rawS) []) /\
  (exists M S', mpes_csr np_search rawS "similarity" TNone 4 (Ok M) S' /\
     same_cell (stored (csr_read rawS) 0 3) (stored (csr_read S') 0 3) = false /\
     stored M 0 3 = stored (csr_read S') 0 3) /\
  (forall i, ascending_columns (csr_sorted rawS) i) /\ search_ok np_search.
Proof.
  split; [exact rawS_ok|]. split.
  { intros H. inversion H; subst. apply Forall_inv in H3. lia. }
  split.
  { assert (ND : forall l : list f64, (fix d (l : list f64) := match l with [] => true | x :: l' => forallb (fun y => negb (neq x y)) l' && negb (nisnan x) && d l' end) l = true -> NoDup l).
    { induction l as [|x l IH]; intros H; [constructor|]. apply andb_prop in H as (H & H2). apply andb_prop in H as (H & H1). constructor; [|auto].
      intros Hx. rewrite forallb_forall in H. specialize (H x Hx). apply negb_true_iff in H, H1.
      rewrite (neq_refl_f64 x H1) in H. discriminate. }
    apply ND. vm_compute. reflexivity. }
  split.
  { eexists; eexists. split; [apply raw_ok; try reflexivity|].
    - intros ij Hij. assert (F : forallb (fun ij => data_idx np_search rawS ij <? size rawS) (csr_tasks rawS) = true) by (vm_compute; reflexivity).
      rewrite forallb_forall in F. apply Nat.ltb_lt, F, Hij.
    - apply pool_run_exists.
    - split; [vm_compute; reflexivity|]. reflexivity. }
  split; [|exact np_search_ok].
  intros i. unfold ascending_columns. cbn [csr_sorted c_idx]. change (@nil nat) with (put_all []). rewrite map_nth.
  apply put_all_sorted, (co_once rawS rawS_ok).
Qed.

Print Assumptions C168_total.
Print Assumptions C168_ascending_columns.
Print Assumptions C168_callers_matrix.
Print Assumptions C168_matrix_is_corrupted.
Print Assumptions C168_retained_rows.
Print Assumptions C168_similarity_lost.
