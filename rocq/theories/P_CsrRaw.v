(** Facts about csr matrices in memory. *)
From Coq Require Import String.
From Coq Require Import ZArith List Arith Lia Bool Sorted Permutation.
From Verif Require Import Py Num Arr Conc M_IO M_MPEmpiric M_CsrRaw S_CsrRaw.
Import ListNotations.

(** ** lookup *)
Lemma assoc_in {V} j (l : list (nat * V)) v : assoc j l = Some v -> In (j, v) l.
Proof.
  induction l as [|[c w] l IH]; simpl; [discriminate|].
  destruct (c =? j) eqn:E; [|auto]. apply Nat.eqb_eq in E. intros [= ->]. left. congruence.
Qed.

Lemma assoc_pos {V} idx (dat : list V) p j v :
  NoDup idx -> nth_error idx p = Some j -> nth_error dat p = Some v -> assoc j (combine idx dat) = Some v.
Proof.
  revert dat p. induction idx as [|c idx IH]; intros dat p ND A B; [destruct p; discriminate|].
  destruct dat as [|w dat]; [destruct p; discriminate|]. cbn [combine assoc].
  destruct p as [|p]; cbn in A, B.
  - injection A as ->. injection B as ->. now rewrite Nat.eqb_refl.
  - inversion ND; subst. destruct (c =? j) eqn:E.
    + apply Nat.eqb_eq in E. subst. exfalso. apply nth_error_In in A. auto.
    + now apply (IH dat p).
Qed.

Lemma combine_in_pos {A B} (l : list A) (l' : list B) a b :
  In (a, b) (combine l l') -> exists p, nth_error l p = Some a /\ nth_error l' p = Some b.
Proof.
  revert l'. induction l as [|x l IH]; intros [|y l'] H; cbn in H; try contradiction.
  destruct H as [[= -> ->]|H]; [exists 0; auto|]. destruct (IH l' H) as (p & P). now exists (S p).
Qed.

Lemma combine_pos_in {A B} (l : list A) (l' : list B) a b p :
  nth_error l p = Some a -> nth_error l' p = Some b -> In (a, b) (combine l l').
Proof.
  revert l' p. induction l as [|x l IH]; intros [|y l'] [|p] P Q; cbn in P, Q; try discriminate; cbn.
  - injection P as ->. injection Q as ->. now left.
  - right. now apply (IH l' p).
Qed.

Lemma assoc_find {V} idx (dat : list V) j v : assoc j (combine idx dat) = Some v ->
  exists p, nth_error idx p = Some j /\ nth_error dat p = Some v.
Proof. intros H. apply assoc_in in H. now apply combine_in_pos. Qed.

Lemma assoc_none {V} idx (dat : list V) j : length dat = length idx -> ~ In j idx -> assoc j (combine idx dat) = None.
Proof.
  intros _ H. destruct (assoc j (combine idx dat)) eqn:E; [|reflexivity].
  apply assoc_find in E as (p & P & _). apply nth_error_In in P. contradiction.
Qed.

(** ** the sorted columns *)
Lemma put_perm c l : Permutation (put c l) (c :: l).
Proof.
  induction l as [|d l IH]; cbn; [constructor; constructor|]. destruct (c <=? d); [reflexivity|].
  rewrite IH. apply perm_swap.
Qed.
Lemma put_all_perm l : Permutation (put_all l) l.
Proof. induction l as [|c l IH]; cbn; [constructor|]. change (fold_right put [] l) with (put_all l). rewrite put_perm, IH. reflexivity. Qed.
Lemma put_sorted c l : StronglySorted lt l -> ~ In c l -> StronglySorted lt (put c l).
Proof.
  induction l as [|d l IH]; cbn; intros H N; [repeat constructor|].
  inversion H; subst. destruct (c <=? d) eqn:E.
  - apply Nat.leb_le in E. assert (c < d) by lia.
    constructor; [assumption|]. constructor; [assumption|]. rewrite Forall_forall in H3 |- *.
    intros x Hx. specialize (H3 x Hx). lia.
  - apply Nat.leb_gt in E. constructor; [apply IH; auto|].
    rewrite Forall_forall in H3 |- *. intros x Hx. apply (Permutation_in _ (put_perm c l)) in Hx as [->|Hx]; auto.
Qed.
Lemma put_all_sorted l : NoDup l -> StronglySorted lt (put_all l).
Proof.
  induction 1 as [|c l H ND IH]; cbn; [constructor|]. apply put_sorted; [assumption|].
  intros Hc. apply H. now apply (Permutation_in _ (put_all_perm l)).
Qed.
Lemma put_all_id l : StronglySorted lt l -> put_all l = l.
Proof.
  induction 1 as [|c l H IH F]; cbn; [reflexivity|]. change (fold_right put [] l) with (put_all l). rewrite IH.
  destruct l as [|d l]; cbn; [reflexivity|]. apply Forall_inv in F. destruct (Nat.leb_spec c d); [reflexivity|lia].
Qed.
Lemma put_all_length l : length (put_all l) = length l.
Proof. apply Permutation_length, put_all_perm. Qed.

(** ** numpy's search *)
Lemma sorted_nth l p q : StronglySorted lt l -> p < q -> q < length l -> nth p l 0 < nth q l 0.
Proof.
  revert p q. induction l as [|c l IH]; intros p q H L Q; cbn in Q; [lia|].
  inversion H; subst. destruct q as [|q]; [lia|]. destruct p as [|p]; cbn.
  - rewrite Forall_forall in H3. apply H3. apply nth_In. lia.
  - apply IH; auto; lia.
Qed.

Lemma sorted_count l j k : StronglySorted lt l -> k <= length l ->
  (forall p, p < k -> nth p l 0 < j) -> (forall p, k <= p -> p < length l -> j <= nth p l 0) ->
  length (filter (fun c => c <? j) l) = k.
Proof.
  revert k. induction l as [|c l IH]; intros k H L A B; cbn in L; [cbn; lia|].
  inversion H; subst. cbn [filter]. destruct k as [|k].
  - pose proof (B 0 ltac:(lia) ltac:(cbn; lia)) as B0. cbn in B0. destruct (Nat.ltb_spec c j); [lia|].
    apply (IH 0); auto; [lia|intros; lia|]. intros p _ Hp. apply (B (S p)); cbn; lia.
  - pose proof (A 0 ltac:(lia)) as A0. cbn in A0. destruct (Nat.ltb_spec c j); [|lia]. cbn [length]. f_equal.
    apply IH; auto; [lia| |]; intros p Hp; [apply (A (S p)); lia|]. intros Hq. apply (B (S p)); cbn; lia.
Qed.

Lemma bisect_count l j : StronglySorted lt l -> forall fuel lo hi, hi - lo <= fuel -> lo <= hi -> hi <= length l ->
  (forall p, p < lo -> nth p l 0 < j) -> (forall p, hi <= p -> p < length l -> j <= nth p l 0) ->
  bisect fuel l j lo hi = length (filter (fun c => c <? j) l).
Proof.
  intros HS. induction fuel as [|f IH]; intros lo hi F L H A B; cbn [bisect].
  - symmetry. apply sorted_count; auto; [lia|]. intros p Hp. apply B. lia.
  - destruct (Nat.ltb_spec lo hi).
    + assert (M : lo <= (lo + hi) / 2 < hi).
      { split; [apply Nat.div_le_lower_bound; lia|apply Nat.div_lt_upper_bound; lia]. }
      set (mid := (lo + hi) / 2) in *. destruct (Nat.ltb_spec (nth mid l 0) j).
      * apply IH; auto; [lia|lia|]. intros p Hp. destruct (Nat.eq_dec p mid) as [->|]; [assumption|].
        pose proof (sorted_nth l p mid HS ltac:(lia) ltac:(lia)). lia.
      * apply IH; auto; [lia|lia|lia|]. intros p Hp Hq. destruct (Nat.eq_dec p mid) as [->|]; [assumption|].
        pose proof (sorted_nth l mid p HS ltac:(lia) Hq). lia.
    + symmetry. apply sorted_count; auto; [lia|]. intros p Hp. apply B. lia.
Qed.

Lemma np_search_ok : search_ok np_search.
Proof. intros l j HS. unfold np_search. apply bisect_count; auto; intros; lia. Qed.

Lemma search_pos search l p j : search_ok search -> StronglySorted lt l -> nth_error l p = Some j -> search l j = p.
Proof.
  intros SO HS E. rewrite (SO l j HS). assert (L : p < length l) by (apply nth_error_Some; congruence).
  pose proof (nth_error_nth l p 0 E) as E0. apply sorted_count; auto; [lia| |].
  - intros q Hq. rewrite <- E0. now apply sorted_nth.
  - intros q Hq L'. destruct (Nat.eq_dec p q) as [<-|]; [lia|].
    pose proof (sorted_nth l p q HS ltac:(lia) L'). lia.
Qed.

(** ** positions *)
Lemma start_lt {V} (S : csr V) i p : p < length (nth i (c_idx S) []) -> start S i + p < size S.
Proof.
  unfold start, size. generalize (c_idx S) as l. intros l. revert i. induction l as [|x l IH]; intros i L.
  - destruct i; cbn in L; lia.
  - change (list_sum (map (@length nat) (x :: l))) with (length x + list_sum (map (@length nat) l)).
    destruct i as [|i]; cbn [nth firstn] in L |- *.
    + cbn [map list_sum fold_right]. lia.
    + change (list_sum (map (@length nat) (x :: firstn i l))) with (length x + list_sum (map (@length nat) (firstn i l))).
      specialize (IH i L). lia.
Qed.

Lemma start_inj {V} (S : csr V) i p i' p' :
  p < length (nth i (c_idx S) []) -> p' < length (nth i' (c_idx S) []) ->
  start S i + p = start S i' + p' -> i = i' /\ p = p'.
Proof.
  unfold start. generalize (c_idx S) as l. intros l. revert i i'.
  induction l as [|x l IH]; intros i i' A B E; [destruct i; cbn in A; lia|].
  assert (F : forall k, list_sum (map (@length nat) (firstn (Datatypes.S k) (x :: l))) = length x + list_sum (map (@length nat) (firstn k l)))
    by reflexivity.
  destruct i as [|i], i' as [|i']; rewrite ?F in E; cbn [nth firstn map] in A, B, E.
  - lia.
  - change (list_sum []) with 0 in E. lia.
  - change (list_sum []) with 0 in E. lia.
  - destruct (IH i i' A B ltac:(lia)). lia.
Qed.

(** ** pools: a cell all of whose writers agree *)
Lemma pool_cell {C V} (ceq : C -> C -> bool) (ceq_spec : forall a b, ceq a b = true <-> a = b)
    (m m' : mem (C:=C) (V:=V)) tasks c v :
  pool_run ceq m tasks m' ->
  (exists t, In t tasks /\ In (c, v) t) -> (forall t v', In t tasks -> In (c, v') t -> v' = v) -> m' c = v.
Proof.
  intros (workers & w & Hp & Hi & ->) Ex Al.
  assert (HW : forall p, In p w <-> exists t, In t tasks /\ In p t).
  { intros p. pose proof (interleave_perm _ _ Hi) as P.
    assert (E : concat (map (@concat write) workers) = concat (concat workers)).
    { clear. induction workers as [|x l IH]; simpl; [reflexivity|]. now rewrite concat_app, IH. }
    rewrite E in P. split.
    - intros Hin. eapply Permutation_in in Hin; [|exact P].
      apply in_concat in Hin as (t & Ht & Hin). exists t. split; [|assumption].
      eapply Permutation_in; [exact Hp|assumption].
    - intros (t & Ht & Hin). eapply Permutation_in; [symmetry; exact P|].
      apply in_concat. exists t. split; [|assumption].
      eapply Permutation_in; [symmetry; exact Hp|assumption]. }
  apply (run_value ceq ceq_spec); [now apply HW|].
  intros v' Hv'. apply HW in Hv' as (t & Ht & Hv'). eauto.
Qed.

Lemma pool_cell_none {C V} (ceq : C -> C -> bool) (ceq_spec : forall a b, ceq a b = true <-> a = b)
    (m m' : mem (C:=C) (V:=V)) tasks c :
  pool_run ceq m tasks m' -> (forall t v, In t tasks -> ~ In (c, v) t) -> m' c = m c.
Proof.
  intros (workers & w & Hp & Hi & ->) No. apply (run_untouched ceq ceq_spec). intros v Hv.
  pose proof (interleave_perm _ _ Hi) as P. eapply Permutation_in in Hv; [|exact P].
  assert (E : concat (map (@concat write) workers) = concat (concat workers)).
  { clear. induction workers as [|x l IH]; simpl; [reflexivity|]. now rewrite concat_app, IH. }
  rewrite E in Hv. apply in_concat in Hv as (t & Ht & Hin). apply (No t v); [|assumption].
  eapply Permutation_in; [exact Hp|assumption].
Qed.

Lemma pool_cell_zero {C V} (ceq : C -> C -> bool) (ceq_spec : forall a b, ceq a b = true <-> a = b)
    (z : V) (m' : mem (C:=C) (V:=V)) tasks c :
  pool_run ceq (fun _ => z) tasks m' -> (forall t v, In t tasks -> ~ In (c, v) t) -> m' c = z.
Proof. intros P H. exact (pool_cell_none ceq ceq_spec _ _ _ _ P H). Qed.

Section Raw.
  Context {V : Type} {N : Num V}.
  Variable search : list nat -> nat -> nat.
  Variable S : csr V.
  Hypothesis OK : csr_ok S.

  Lemma read_pos i p j v : nth_error (nth i (c_idx S) []) p = Some j -> nth_error (nth i (c_dat S) []) p = Some v ->
    stored (csr_read S) i j = Some v.
  Proof. intros A B. cbn. apply (assoc_pos _ _ p); auto. apply (co_once S OK). Qed.

  Lemma pos_val i p j : nth_error (nth i (c_idx S) []) p = Some j -> exists v, nth_error (nth i (c_dat S) []) p = Some v.
  Proof.
    intros A. destruct (nth_error (nth i (c_dat S) []) p) as [v|] eqn:E; [now exists v|].
    apply nth_error_None in E. rewrite (co_vals S OK) in E.
    assert (p < length (nth i (c_idx S) [])) by (apply nth_error_Some; congruence). lia.
  Qed.

  Lemma row_in i p j : nth_error (nth i (c_idx S) []) p = Some j -> i < length (c_idx S).
  Proof.
    intros A. destruct (Nat.lt_ge_cases i (length (c_idx S))); [assumption|].
    rewrite nth_overflow in A by assumption. destruct p; discriminate.
  Qed.

  Lemma csr_tasks_in i j : In (i, j) (csr_tasks S) <->
    i <= j /\ exists v, stored (csr_read S) i j = Some v /\ nonzero v = true.
  Proof.
    unfold csr_tasks. rewrite in_flat_map. split.
    - intros (i' & Hi & H). apply in_map_iff in H as ([c v] & [= -> <-] & H).
      apply filter_In in H as (H & F). cbn in F. apply andb_prop in F as (F1 & F2). apply Nat.leb_le in F1.
      split; [assumption|]. exists v. split; [|assumption].
      apply combine_in_pos in H as (p & A & B). now apply (read_pos i p).
    - intros (L & v & E & F). cbn in E. pose proof (assoc_in _ _ _ E) as H.
      apply combine_in_pos in H as (p & A & B). exists i. split; [apply in_seq; pose proof (row_in i p j A); lia|].
      apply in_map_iff. exists (j, v). split; [reflexivity|]. apply filter_In. split.
      + now apply (combine_pos_in _ _ _ _ p).
      + cbn. rewrite F. apply Nat.leb_le in L. now rewrite L.
  Qed.

  Lemma mpes_tasks_in i j : In (i, j) (mpes_tasks (csr_read S)) <-> In (i, j) (csr_tasks S).
  Proof.
    rewrite csr_tasks_in. unfold mpes_tasks. rewrite filter_In. cbn [fst snd]. rewrite in_prod_iff, !in_seq.
    split.
    - intros (_ & H). apply andb_prop in H as (A & B). apply Nat.leb_le in A. split; [assumption|].
      destruct (stored (csr_read S) i j) as [v|]; [|discriminate]. now exists v.
    - intros (L & v & E & F). rewrite E, F. apply Nat.leb_le in L. rewrite L. split; [|reflexivity].
      cbn in E. apply assoc_find in E as (p & A & B).
      pose proof (row_in i p j A). pose proof (co_cols S OK i j (nth_error_In _ _ A)). cbn. lia.
  Qed.

  Lemma row_nnz_length i : row_nnz (csr_read S) i = length (nth i (c_idx S) []).
  Proof.
    unfold row_nnz, count_if, count_true. cbn [scol csr_read].
    assert (E : forall (f : nat -> bool) l, count_occ bool_dec (map f l) true = length (filter f l)).
    { intros f l. induction l as [|x l IH]; cbn; [reflexivity|]. destruct (f x); cbn; [destruct (bool_dec true true); congruence|].
      destruct (bool_dec false true); congruence. }
    try rewrite E. apply Permutation_length, NoDup_Permutation.
    - apply NoDup_filter, seq_NoDup.
    - apply (co_once S OK).
    - intros j. rewrite filter_In, in_seq. unfold is_stored. split.
      + intros (_ & H). destruct (stored (csr_read S) i j) as [v|] eqn:F; [|discriminate]. cbn in F.
        apply assoc_find in F as (p & A & _). exact (nth_error_In _ _ A).
      + intros H. split; [pose proof (co_cols S OK i j H); cbn; lia|].
        apply In_nth_error in H as (p & A). destruct (pos_val i p j A) as (v & B). now rewrite (read_pos i p j v A B).
  Qed.

  Lemma sorted_read_id : (forall i, ascending_columns S i) -> csr_sorted S = S.
  Proof.
    intros As. unfold csr_sorted. destruct S as [cols idx dat]. cbn in *. f_equal.
    rewrite <- (map_id idx) at 2. apply map_ext_in. intros l Hl. apply (In_nth _ _ []) in Hl as (i & Hi & <-).
    apply put_all_id. exact (As i).
  Qed.

  Lemma data_idx_pos i j p : search_ok search -> ascending_columns S i ->
    nth_error (nth i (c_idx S) []) p = Some j -> data_idx search S (i, j) = start S i + p.
  Proof. intros SO As A. unfold data_idx. cbn. now rewrite (search_pos search _ p j SO As A). Qed.
End Raw.
