(** Proofs about the parallel branch of snn_sample (M_SNNSample.v) and about
    snn_sample compared with shared_nearest_neighbors. *)
From Coq Require Import String.
From Coq Require Import ZArith List Arith Lia Bool Permutation.
From Verif Require Import Py Num Arr Sort Conc S_Neighbors S_SNN M_IO M_SNN M_SNNSample.
From Verif Require Import P_Neighbors P_F64 P_Hubness P_MPEmpiric2 P_SNN.
Import ListNotations.
Local Open Scope nat_scope.

Section P.
  Context {V : Type} {N : Num V}.
  Variable argsort : list V -> list nat.

  Lemma sphase1 metric k (dist : arr2 V) n knn :
    pool_run celleq (fun _ => false) (map (snns_task1 argsort metric k dist) (seq 0 n)) knn ->
    forall a b, a < n ->
      knn (a, b) = existsb (Nat.eqb b) (prefix (snn_order metric (argsort (rowl dist a))) k).
  Proof.
    intros H a b Ha.
    pose proof (fun F => pool_run_fun celleq celleq_spec _ knn _ (fun _ => true) F H (a, b)) as G.
    destruct G as (G1 & G2).
    { intros t c v Ht Hin. apply in_map_iff in Ht as (i & <- & _).
      unfold snns_task1 in Hin. apply in_map_iff in Hin as (x & E & _). congruence. }
    destruct (existsb _ _) eqn:E.
    - apply G1. exists (snns_task1 argsort metric k dist a). split.
      + apply in_map_iff. exists a. split; [reflexivity|]. apply in_seq. lia.
      + unfold snns_task1. apply in_map_iff. exists b. split; [reflexivity|]. now apply existsb_In.
    - apply G2. intros t v Ht Hin. apply in_map_iff in Ht as (i & <- & _).
      unfold snns_task1 in Hin. apply in_map_iff in Hin as (x & E' & Hx).
      injection E' as -> -> _. apply existsb_nIn in E. contradiction.
  Qed.

  Lemma sphase2 metric k s train rows (knn : cell -> bool) (data : cell -> V) :
    pool_run celleq (fun _ => n0) (map (snns_task2 metric k s train knn) rows) data ->
    forall a b, b < s ->
      data (a, b) = if existsb (Nat.eqb a) rows
                    then snn_val metric k (snn_shared s (fun x => knn (a, x)) (fun x => knn (nth b train 0, x)))
                    else n0.
  Proof.
    intros H a b Hb.
    pose proof (fun F => pool_run_fun celleq celleq_spec _ data _
      (fun c => snn_val metric k (snn_shared s (fun x => knn (fst c, x)) (fun x => knn (nth (snd c) train 0, x))))
      F H (a, b)) as G.
    destruct G as (G1 & G2).
    { intros t c v Ht Hin. apply in_map_iff in Ht as (i & <- & _).
      unfold snns_task2 in Hin. apply in_map_iff in Hin as (x & E & _). injection E as <- <-. reflexivity. }
    destruct (existsb (Nat.eqb a) rows) eqn:E.
    - apply existsb_In in E. apply G1. exists (snns_task2 metric k s train knn a). split.
      + apply in_map_iff. exists a. split; [reflexivity|assumption].
      + unfold snns_task2. apply in_map_iff. exists b. split; [reflexivity|]. apply in_seq. lia.
    - apply existsb_nIn in E. apply G2. intros t v Ht Hin. apply in_map_iff in Ht as (i & <- & Hi).
      unfold snns_task2 in Hin. apply in_map_iff in Hin as (x & E' & Hx).
      injection E' as -> -> _. contradiction.
  Qed.

  Lemma existsb_ge_true n l : existsb (fun i => n <=? i) l = true <-> exists i, In i l /\ n <= i.
  Proof.
    rewrite existsb_exists. split; intros (i & H & L); exists i; (split; [assumption|]);
      now apply Nat.leb_le.
  Qed.

  Lemma snn_sample_unfold (D : arr2 V) k metric train test :
    check_sample_shape_fits (Dense [nrow D; ncol D]) (Dense [length train]) = Ok tt ->
    check_valid_metric_parameter metric = Ok tt ->
    (forall i, In i train -> i < nrow D) ->
    (forall i, In i (snns_rows (nrow D) test) -> i < nrow D) ->
    snn_sample argsort D k metric train test =
    Ok (snns_finish metric train test
      (fold_left (fun M i => setrow M i 0 (ncol D) (fun j =>
        snn_val metric k (snn_shared (ncol D)
          (at2 (for_ (nrow D) (fun i K => mark_row K i (prefix (snn_order metric
             (argsort (rowl (set_cells train (snn_exclude metric) D) i))) k))
             (full2 (nrow D) (ncol D) false)) i)
          (at2 (for_ (nrow D) (fun i K => mark_row K i (prefix (snn_order metric
             (argsort (rowl (set_cells train (snn_exclude metric) D) i))) k))
             (full2 (nrow D) (ncol D) false)) (nth j train 0)))))
        (snns_rows (nrow D) test) (full2 (nrow D) (ncol D) n0))).
  Proof.
    intros H1 H2 H3 H4. unfold snn_sample. rewrite H1, H2. cbn [bind].
    rewrite (proj2 (existsb_ge_false (nrow D) train) H3). cbn [guard bind].
    destruct test as [t|]; cbn [snns_rows] in *.
    - rewrite (proj2 (existsb_ge_false (nrow D) t) H4). cbn [guard bind].
      unfold snns_finish. do 2 f_equal. symmetry.
      match goal with |- ncol (fold_left (fun M i => setrow M i 0 ?s (@?f i)) _ _) = _ =>
        exact (proj2 (rows_shape t s f (full2 (nrow D) (ncol D) n0))) end.
    - reflexivity.
  Qed.

  Lemma snn_sample_parallel_serial (D : arr2 V) k metric train test r :
    snn_sample_parallel argsort D k metric train test r ->
    match r, snn_sample argsort D k metric train test with
    | Ok M, Ok M' => eq2 M M'
    | Raise e, Raise e' => e = e'
    | _, _ => False
    end.
  Proof.
    intros H.
    inversion H as [e H1|e H1 H2|i H1 H2 H3 H4|i H1 H2 H3 H4 H5|knn data H1 H2 H3 H4 H5 H6]; subst r.
    - unfold snn_sample. rewrite H1. reflexivity.
    - unfold snn_sample. rewrite H1, H2. reflexivity.
    - unfold snn_sample. rewrite H1, H2. cbn [bind].
      rewrite (proj2 (existsb_ge_true (nrow D) train)) by eauto. reflexivity.
    - unfold snn_sample. rewrite H1, H2. cbn [bind].
      rewrite (proj2 (existsb_ge_false (nrow D) train) H3). cbn [guard bind].
      destruct test as [t|]; cbn [snns_rows] in H4.
      + rewrite (proj2 (existsb_ge_true (nrow D) t)) by eauto. reflexivity.
      + apply in_seq in H4. lia.
    - rewrite snn_sample_unfold by assumption.
      set (hood := fun i => prefix (snn_order metric
             (argsort (rowl (set_cells train (snn_exclude metric) D) i))) k).
      set (f := fun i j =>
        snn_val metric k (snn_shared (ncol D)
          (at2 (for_ (nrow D) (fun i K => mark_row K i (hood i)) (full2 (nrow D) (ncol D) false)) i)
          (at2 (for_ (nrow D) (fun i K => mark_row K i (hood i)) (full2 (nrow D) (ncol D) false))
               (nth j train 0)))).
      change (eq2 (snns_finish metric train test (Arr2 (nrow D) (ncol D) (fun i j => data (i, j))))
        (snns_finish metric train test
          (fold_left (fun M i => setrow M i 0 (ncol D) (f i)) (snns_rows (nrow D) test)
             (full2 (nrow D) (ncol D) n0)))).
      destruct (rows_shape (snns_rows (nrow D) test) (ncol D) f (full2 (nrow D) (ncol D) n0)) as (R & C).
      cbn [nrow ncol full2] in R, C.
      assert (L : length train = ncol D).
      { unfold check_sample_shape_fits, guard, dim0, dim1, size_of in H1. simpl in H1.
        destruct (nrow D <? ncol D); [discriminate|]. cbn [bind] in H1.
        destruct (Nat.eqb_spec (ncol D) (length train * 1)) as [E|E]; [lia|discriminate]. }
      assert (A : forall a b, a < nrow D -> b < ncol D ->
        data (a, b) = at2 (fold_left (fun M i => setrow M i 0 (ncol D) (f i)) (snns_rows (nrow D) test)
             (full2 (nrow D) (ncol D) n0)) a b).
      { intros a b Ha Hb. rewrite rows_loop by assumption.
        rewrite (sphase2 metric k (ncol D) train _ knn data H6) by assumption.
        destruct (existsb (Nat.eqb a) (snns_rows (nrow D) test)); [|reflexivity].
        unfold f. f_equal. unfold snn_shared. apply count_if_ext. intros x Hx.
        assert (nth b train 0 < nrow D) by (apply H3, nth_In; lia).
        rewrite !(sphase1 metric k _ (nrow D) knn H5) by assumption.
        rewrite !mark_loop.
        replace (a <? nrow D) with true by (symmetry; apply Nat.ltb_lt; lia).
        replace (nth b train 0 <? nrow D) with true by (symmetry; apply Nat.ltb_lt; lia).
        reflexivity. }
      destruct test as [t|]; unfold snns_finish.
      + split; [reflexivity|]. split; [cbn [ncol]; symmetry; exact C|].
        cbn [nrow ncol at2]. intros a b Ha Hb. rewrite !set_cells_at.
        destruct ((b <? length train) && (nth a t 0 =? nth b train 0)); [reflexivity|]. cbn [at2]. apply A; [|assumption].
        apply H4. cbn [snns_rows]. now apply nth_In.
      + split; [cbn [nrow fill_diagonal]; symmetry; exact R|].
        split; [cbn [ncol fill_diagonal]; symmetry; exact C|].
        cbn [nrow ncol at2 fill_diagonal]. intros a b Ha Hb.
        destruct (a =? b); [reflexivity|]. now apply A.
  Qed.

  Lemma snn_sample_parallel_exists (D : arr2 V) k metric train test :
    exists r, snn_sample_parallel argsort D k metric train test r.
  Proof.
    destruct (check_sample_shape_fits (Dense [nrow D; ncol D]) (Dense [length train])) as [[]|e] eqn:H1.
    2:{ exists (Raise e). now apply ss_shape. }
    destruct (check_valid_metric_parameter metric) as [[]|e] eqn:H2.
    2:{ exists (Raise e). apply ss_metric; assumption. }
    destruct (existsb (fun i => nrow D <=? i) train) eqn:H3.
    { apply existsb_ge_true in H3 as (i & Hi & Hl). exists (Raise IndexError). now apply (ss_train _ _ _ _ _ _ i). }
    rewrite existsb_ge_false in H3.
    destruct (existsb (fun i => nrow D <=? i) (snns_rows (nrow D) test)) eqn:H4.
    { apply existsb_ge_true in H4 as (i & Hi & Hl). exists (Raise IndexError). now apply (ss_test _ _ _ _ _ _ i). }
    rewrite existsb_ge_false in H4.
    eexists. eapply ss_ok; eauto; apply pool_run_exists.
  Qed.
End P.

(* ---------------- comparison with shared_nearest_neighbors ---------------- *)
(** without ties a set of k best candidates is unique *)
Lemma kset_unique better m k A B :
  (forall x y, x < m -> y < m -> x <> y -> better x y = true \/ better y x = true) ->
  kset better m k A -> kset better m k B -> forall x, In x A -> In x B.
Proof.
  intros T [LA NA RA BA] [LB NB RB BB] x Hx.
  destruct (in_dec Nat.eq_dec x B) as [|Hn]; [assumption|exfalso].
  assert (Hy : exists y, In y B /\ ~ In y A).
  { destruct (existsb (fun y => negb (existsb (Nat.eqb y) A)) B) eqn:E.
    - apply existsb_exists in E as (y & Hy & E). exists y. split; [assumption|].
      apply negb_true_iff in E. now apply existsb_nIn.
    - exfalso. assert (I : incl B A).
      { intros y Hy. apply existsb_In. destruct (existsb (Nat.eqb y) A) eqn:E'; [reflexivity|].
        assert (existsb (fun y => negb (existsb (Nat.eqb y) A)) B = true); [|congruence].
        apply existsb_exists. exists y. now rewrite E'. }
      apply Hn. apply (NoDup_length_incl (l:=B) (l':=A) NB); [lia|assumption|assumption]. }
  destruct Hy as (y & Hy & Hny).
  destruct (T x y) as [E|E]; auto.
  - intros ->. contradiction.
  - rewrite (BB x y) in E by auto. discriminate.
  - rewrite (BA y x) in E by auto. discriminate.
Qed.

Lemma overlap_ext a b a' b' : NoDup a -> NoDup a' ->
  (forall x, In x a <-> In x a') -> (forall x, In x b <-> In x b') -> overlap a b = overlap a' b'.
Proof.
  intros N1 N2 H1 H2. unfold overlap.
  apply Permutation_length. apply NoDup_Permutation.
  - now apply NoDup_filter.
  - now apply NoDup_filter.
  - intros x. rewrite !filter_In, !existsb_In, H1, H2. reflexivity.
Qed.
