(** Property C73: empiric mutual proximity on candidate rows of an index. *)
From Coq Require Import String.
From Coq Require Import ZArith List Arith Lia Bool Permutation Reals Lra.
From Verif Require Import Py Num NumT NumF32 Arr Sort Conc S_Neighbors S_Approx S_ApproxANN M_Hubness M_Approx M_ApproxANN.
From Verif Require Import P_F32 P_Hubness P_MPEmpiric P_LS P_Neighbors P_Approx P_ApproxFixed P_ApproxLS P_ApproxANN Properties_ApproxMP Properties_ApproxANN.
Import ListNotations.
Local Open Scope nat_scope.

(** [fraction_left n P v]: v is (the float32 nearest to) one minus the fraction
    of the n training objects for which P holds *)
Definition one_minus_fraction (n : nat) (P : nat -> Prop) (v : f32) : Prop :=
  exists U, NoDup U /\ (forall l, In l U <-> l < n /\ P l) /\
    v = f32_of (nsub n1 (ndiv (nofnat (length U)) (nofnat n))).

Lemma ann_cell n ix it : one_minus_fraction n (fun l => ~ In l ix /\ ~ In l it) (mp_ann_cell f32_of n ix it).
Proof.
  exists (filter (fun a => negb (existsb (Nat.eqb a) (ix ++ it))) (seq 0 n)). split; [apply NoDup_filter, seq_NoDup|].
  split; [|reflexivity]. intros l. rewrite filter_In, in_seq, negb_true_iff.
  assert (E : existsb (Nat.eqb l) (ix ++ it) = true <-> In l (ix ++ it)).
  { rewrite existsb_exists. split; [intros (x & I & E); apply Nat.eqb_eq in E; now subst|]. intros I. exists l. split; [exact I|apply Nat.eqb_refl]. }
  rewrite in_app_iff in E. destruct (existsb (Nat.eqb l) (ix ++ it)); intuition (try lia; try discriminate).
Qed.
Lemma fraction_ext n (P Q : nat -> Prop) v : (forall l, l < n -> (P l <-> Q l)) -> one_minus_fraction n P v -> one_minus_fraction n Q v.
Proof.
  intros H (U & A & B & C). exists U. split; [exact A|]. split; [|exact C]. intros l. rewrite B. split; intros (L & X); (split; [exact L|now apply H]).
Qed.
Lemma fraction_unique n P v w : one_minus_fraction n P v -> one_minus_fraction n P w -> v = w.
Proof.
  intros (U & A & B & C) (U' & A' & B' & C'). assert (E : length U = length U').
  { apply Permutation_length, NoDup_Permutation; auto. intros l. now rewrite B, B'. }
  now rewrite C, C', E.
Qed.

Lemma in_firstn (l : list nat) q x : In x (firstn q l) <-> exists p, p < q /\ p < length l /\ nth p l 0 = x.
Proof.
  split.
  - intros I. apply (In_nth _ _ 0) in I as (p & Hp & E). rewrite firstn_length in Hp. exists p. split; [lia|]. split; [lia|].
    rewrite P_Neighbors.nth_firstn_lt in E by lia. exact E.
  - intros (p & Hp & Hl & <-). rewrite <- (P_Neighbors.nth_firstn_lt q) by exact Hp. apply nth_In. rewrite firstn_length. lia.
Qed.

Lemma mp_hnsw_run searchr metric k at_ ate R : mp_hnsw f32_of searchr metric k at_ ate (Ok R) ->
  exists train test, hnsw_filtering metric k at_ = Ok train /\ hnsw_trafo metric k ate = Ok test /\
    nrow R = length test /\ ncol R = k /\
    forall i j, i < length test -> j < k -> at2 R i j = mp_hnsw_cell f32_of searchr train test i j.
Proof.
  intros H. inversion H as [| |train test buf E1 E2 P ER]; subst. exists train, test. split; [exact E1|]. split; [exact E2|].
  split; [reflexivity|]. split; [reflexivity|]. intros i j Hi Hj. cbn [at2].
  apply (pool_run_fun cell_eq cell_eq_spec _ _ _ (fun c => mp_hnsw_cell f32_of searchr train test (fst c) (snd c))) with (c := (i, j)) in P.
  - apply P. eexists. split; [apply in_map_iff; exists i; split; [reflexivity|apply in_seq; lia]|].
    apply in_map_iff. exists j. split; [reflexivity|]. apply in_seq. lia.
  - intros t c v It Iw. apply in_map_iff in It as (i' & <- & _). apply in_map_iff in Iw as (j' & Ej & _). injection Ej as <- <-. reflexivity.
Qed.
Lemma trafo_len metric k (ans : list (list (nat * f32))) rows : 1 <= k -> hnsw_trafo metric k ans = Ok rows ->
  length rows = length ans /\ forall i, i < length ans -> length (fst (nth i rows ([], []))) = k /\ length (snd (nth i rows ([], []))) = k.
Proof.
  intros Hk E. destruct (Properties_ApproxANN.C72_hnsw_transform metric k ans Hk) as (O & H). destruct (H rows E) as (L & Hr). split; [exact L|].
  intros i Hi. destruct (Hr i Hi) as (x & l & m & Ea & E1 & E2 & _). rewrite E1, E2.
  assert (La : length (x :: l) <= k) by (rewrite <- Ea; apply (proj1 O (ex_intro _ rows E)), nth_In, Hi).
  unfold extended. repeat (rewrite ?map_length, ?app_length, ?repeat_length). cbn [length] in *. lia.
Qed.
Lemma filter_len metric k (ans : list (list (nat * f32))) rows : hnsw_filtering metric k ans = Ok rows ->
  length rows = length ans /\ forall i, i < length ans -> length (fst (nth i rows ([], []))) = k /\ length (snd (nth i rows ([], []))) = k.
Proof.
  intros E. destruct (Properties_ApproxANN.C72_hnsw_fit metric k ans) as (O & H). destruct (H rows E) as (L & Hr). split; [exact L|].
  intros i Hi. destruct (Hr i Hi) as (x & l & m & Ea & E1 & E2 & _). rewrite E1, E2.
  assert (La : length (x :: l) <= k + 1) by (rewrite <- Ea; apply (proj1 O (ex_intro _ rows E)), nth_In, Hi). cbn in La.
  unfold extended. repeat (rewrite ?map_length, ?app_length, ?repeat_length). cbn [length] in *. lia.
Qed.

(** a row of distances in ascending order, without NaN *)
Definition ascending_row (l : list f32) : Prop :=
  no_nan l /\ forall p q d, p <= q -> q < length l -> nle (nth p l d) (nth q l d) = true.

(** HNSW.  For every schedule of the workers, the value for query i and its j-th
    candidate t at distance d is one minus the fraction of training objects that
    are neither among the first j+1 candidates of the query nor among the
    candidates of t at distance at most d. *)
Theorem C73_hnsw_value :
  forall searchr metric k ans_train ans_test R, searchr_ok searchr -> 1 <= k ->
    mp_hnsw f32_of searchr metric k ans_train ans_test (Ok R) ->
    exists train test,
      hnsw_filtering metric k ans_train = Ok train /\ hnsw_trafo metric k ans_test = Ok test /\
      nrow R = length ans_test /\ ncol R = k /\
      forall i j, i < length ans_test -> j < k ->
        let '(nb, dist) := nth i test ([], []) in
        let d := nth j dist nnan in let t := nth j nb 0 in
        let '(nb_t, dist_t) := nth t train ([], []) in
        t < length ans_train -> nisnan d = false -> ascending_row dist_t ->
        one_minus_fraction (length ans_train)
          (fun l => ~ (exists p, p <= j /\ nth p nb 0 = l) /\ ~ (exists p, p < k /\ nth p nb_t 0 = l /\ nle (nth p dist_t nnan) d = true))
          (at2 R i j).
Proof.
  intros searchr metric k at_ ate R HS Hk H. destruct (mp_hnsw_run _ _ _ _ _ _ H) as (train & test & E1 & E2 & A & B & C).
  destruct (filter_len _ _ _ _ E1) as (L1 & LL1). destruct (trafo_len _ _ _ _ Hk E2) as (L2 & LL2).
  exists train, test. split; [exact E1|]. split; [exact E2|]. split; [lia|]. split; [exact B|]. intros i j Hi Hj.
  rewrite (C i j) by lia. clear C. unfold mp_hnsw_cell. specialize (LL2 i Hi). destruct (nth i test ([], [])) as (nb & dist). cbn [fst snd] in *.
  destruct LL2 as (Ln & Ld). set (d := nth j dist nnan). set (t := nth j nb 0).
  destruct (nth t train ([], [])) as (nt & dt) eqn:Et. cbn [fst snd]. intros Ht Nd (Na & As).
  specialize (LL1 t Ht). rewrite Et in LL1. cbn [fst snd] in LL1. destruct LL1 as (Lnt & Ldt).
  destruct (HS dt d) as (S1 & S2 & S3); [intros x [<-|Hx]; auto|exact As|].
  rewrite L1. eapply fraction_ext; [|apply ann_cell]. intros l _. cbv beta. rewrite !in_firstn.
  assert (G1 : (exists p, p < j + 1 /\ p < length nb /\ nth p nb 0 = l) <-> (exists p, p <= j /\ nth p nb 0 = l)).
  { split; intros (p & X); exists p; [tauto || (split; [lia|tauto])|]. destruct X as (X1 & X2). split; [lia|]. split; [lia|exact X2]. }
  assert (G2 : (exists p, p < searchr dt d /\ p < length nt /\ nth p nt 0 = l) <-> (exists p, p < k /\ nth p nt 0 = l /\ nle (nth p dt nnan) d = true)).
  { split; intros (p & X1 & X2 & X3); exists p.
    - split; [lia|]. split; [exact X3|]. now apply S2.
    - split; [|split; [lia|exact X2]]. destruct (Nat.lt_ge_cases p (searchr dt d)) as [Hp|Hp]; [exact Hp|]. exfalso.
      specialize (S3 p nnan Hp ltac:(lia)). assert (Np : nisnan (nth p dt nnan) = false) by (apply Na, nth_In; lia).
      rewrite (nle_not_lt f32_cmp) in X3 by auto. rewrite S3 in X3. discriminate. }
  rewrite G1, G2. tauto.
Qed.

(** All schedules give the same matrix; a run exists whenever the rows do. *)
Theorem C73_hnsw_schedules :
  forall searchr metric k ans_train ans_test,
    (exists r, mp_hnsw f32_of searchr metric k ans_train ans_test r) /\
    forall r r', mp_hnsw f32_of searchr metric k ans_train ans_test r -> mp_hnsw f32_of searchr metric k ans_train ans_test r' ->
    match r, r' with
    | Ok R, Ok R' => nrow R = nrow R' /\ ncol R = ncol R' /\ forall i j, i < nrow R -> j < ncol R -> at2 R i j = at2 R' i j
    | Raise e, Raise e' => e = e'
    | _, _ => False
    end.
Proof.
  intros searchr metric k at_ ate. split.
  - destruct (hnsw_filtering metric k at_) as [train|e] eqn:E1; [|eexists; eapply mh_fail_fit; exact E1].
    destruct (hnsw_trafo metric k ate) as [test|e] eqn:E2; [|eexists; eapply mh_fail_trans; [exact E1|exact E2]].
    eexists. eapply mh_run; [exact E1|exact E2|]. apply pool_run_exists.
  - intros r r' H H'. destruct r as [R|e], r' as [R'|e'].
    + destruct (mp_hnsw_run _ _ _ _ _ _ H) as (tr & te & E1 & E2 & A & B & C).
      destruct (mp_hnsw_run _ _ _ _ _ _ H') as (tr' & te' & E1' & E2' & A' & B' & C').
      assert (tr' = tr) by congruence. assert (te' = te) by congruence. subst tr' te'.
      split; [congruence|]. split; [congruence|]. intros i j Hi Hj. rewrite C, C' by lia. reflexivity.
    + inversion H; inversion H'; subst; congruence.
    + inversion H; inversion H'; subst; congruence.
    + inversion H; inversion H'; subst; congruence.
Qed.

(** Values lie in (0, 1]. *)
Theorem C73_hnsw_range :
  forall searchr metric k ans_train ans_test R i j, 1 <= k ->
    mp_hnsw f32_of searchr metric k ans_train ans_test (Ok R) ->
    (Z.of_nat (length ans_train) <= 2 ^ 53)%Z ->
    (forall a p, In a ans_test -> In p a -> fst p < length ans_train) -> i < nrow R -> j < ncol R ->
    nlt n0 (at2 R i j) = true /\ nle (at2 R i j) n1 = true.
Proof.
  intros searchr metric k at_ ate R i j Hk H Hb Hin Hi Hj.
  destruct (mp_hnsw_run _ _ _ _ _ _ H) as (train & test & E1 & E2 & A & B & C). rewrite (C i j) by lia. clear C.
  destruct (filter_len _ _ _ _ E1) as (L1 & _). destruct (trafo_len _ _ _ _ Hk E2) as (L2 & LL2).
  destruct (Properties_ApproxANN.C72_hnsw_transform metric k ate Hk) as (_ & HT). destruct (HT test E2) as (_ & Hr).
  assert (Hi' : i < length ate) by lia. destruct (Hr i Hi') as (x & l & m & Ea & E3 & _ & _). destruct (LL2 i Hi') as (Ln & _).
  unfold mp_hnsw_cell. set (row := nth i test ([], [])) in *. set (t := nth j (fst row) 0).
  assert (Ht : t < length train).
  { rewrite L1. assert (It : In t (fst row)) by (apply nth_In; lia). rewrite E3 in It. unfold extended in It. apply in_app_iff in It as [It|It].
    - apply in_map_iff in It as (p & <- & Ip). apply (Hin (x :: l)); [rewrite <- Ea; now apply nth_In|exact Ip].
    - apply repeat_spec in It. rewrite It. apply (Hin (x :: l)); [rewrite <- Ea; now apply nth_In|].
      destruct (exists_last (l := x :: l)) as (l' & y & El); [discriminate|]. rewrite El, last_last. apply in_app_iff. right. now left. }
  unfold mp_ann_cell. apply f32_of_compl_frac; [|now rewrite L1].
  assert (G : forall P n, t < n -> P t = false -> length (filter P (seq 0 n)) < n).
  { intros P n Ht' HP. rewrite <- count_if_filter. pose proof (count_if_neg P n) as G.
    assert (1 <= count_if (fun l => negb (P l)) n); [|lia].
    rewrite count_if_filter. destruct (filter (fun l => negb (P l)) (seq 0 n)) eqn:Ef; [|cbn; lia].
    exfalso. assert (In t (filter (fun l => negb (P l)) (seq 0 n))); [|rewrite Ef in *; auto].
    apply filter_In. split; [apply in_seq; lia|]. now rewrite HP. }
  apply G; [exact Ht|]. apply negb_false_iff, existsb_exists. exists t. split; [|apply Nat.eqb_refl].
  apply in_app_iff. left. apply in_firstn. exists j. split; [lia|]. split; [lia|reflexivity].
Qed.

Lemma farther_fraction (dx dj : nat -> f32) n t :
  one_minus_fraction n (fun l => l <> t /\ nlt (dx t) (dx l) = true /\ nlt (dx t) (dj l) = true)
    (f32_of (nsub n1 (ndiv (nofnat (farther_vantage dx dj n t)) (nofnat n)))).
Proof.
  unfold farther_vantage.
  exists (filter (fun l => negb (l =? t) && (nlt (dx t) (dx l) && nlt (dx t) (dj l))) (seq 0 n)).
  split; [apply NoDup_filter, seq_NoDup|]. split; [|reflexivity]. intros l.
  rewrite filter_In, in_seq, !andb_true_iff, negb_true_iff, Nat.eqb_neq. intuition lia.
Qed.
Lemma nlt_asym32 (x y : f32) : nlt x y = true -> nlt y x = false.
Proof.
  intros H. destruct (nlt y x) eqn:E; [|reflexivity]. pose proof (nlt_trans f32_cmp _ _ _ H E) as C. rewrite (nlt_irrefl f32_cmp) in C. discriminate.
Qed.

(** With an exact index that answers all other training objects, nearest first,
    and no two objects equally far from a query, HNSW gives the same values as
    mutual proximity without sampling. *)
Theorem C73_hnsw_exact :
  forall searchr sdist metric k ns n_jobs (Xt X R R' : arr2 f32) ans_train ans_test train test,
    searchr_ok searchr -> 1 <= k ->
    mp_hnsw f32_of searchr metric k ans_train ans_test (Ok R) ->
    mp_fixed sdist f32_of metric SNone ns n_jobs Xt X (Ok R') ->
    k + 1 = nrow Xt -> length ans_train = nrow Xt -> length ans_test = nrow X ->
    hnsw_filtering metric k ans_train = Ok train -> hnsw_trafo metric k ans_test = Ok test ->
    let dx i l := sdist metric (ncol X) (at2 X i) (at2 Xt l) in
    let dt t l := sdist metric (ncol Xt) (at2 Xt t) (at2 Xt l) in
    (forall t, t < nrow Xt -> let '(nb, dist) := nth t train ([], []) in
       Permutation nb (but t (nrow Xt)) /\ dist = map (dt t) nb /\ ascending_row dist) ->
    (forall i, i < nrow X -> let '(nb, dist) := nth i test ([], []) in
       NoDup nb /\ (forall l, In l nb -> l < nrow Xt) /\ dist = map (dx i) nb /\ no_nan dist /\
       forall p l, p < k -> l < nrow Xt -> ~ In l (firstn (p + 1) nb) -> nlt (dx i (nth p nb 0)) (dx i l) = true) ->
    forall i j, i < nrow X -> j < k -> at2 R i j = at2 R' i (nth j (fst (nth i test ([], []))) 0).
Proof.
  intros searchr sdist metric k ns nj Xt X R R' at_ ate train test HS Hk H H' Hn L1 L2 E1 E2 dx dt HT HQ i j Hi Hj.
  destruct (C73_hnsw_value _ _ _ _ _ _ HS Hk H) as (tr & te & E1' & E2' & A & B & C).
  assert (tr = train) by congruence. assert (te = test) by congruence. subst tr te.
  destruct (trafo_len _ _ _ _ Hk E2) as (_ & LL2). specialize (LL2 i ltac:(lia)).
  specialize (C i j ltac:(lia) Hj). specialize (HQ i Hi). destruct (nth i test ([], [])) as (nb & dist). cbn [fst snd] in *.
  destruct HQ as (ND & NL & -> & NN & NF). destruct LL2 as (Ln & _). set (t := nth j nb 0) in *.
  assert (It : In t nb) by (apply nth_In; lia). assert (Ht : t < nrow Xt) by auto.
  destruct (filter_len _ _ _ _ E1) as (_ & LL1). specialize (LL1 t ltac:(lia)).
  specialize (HT t Ht). destruct (nth t train ([], [])) as (nt & dtl). cbn [fst snd] in *. destruct LL1 as (Lnt & _).
  destruct HT as (PT & -> & (NT & AT)).
  assert (Ed : nth j (map (dx i) nb) nnan = dx i t).
  { rewrite (nth_indep _ nnan (dx i 0)) by (rewrite map_length; lia). apply map_nth. }
  rewrite Ed in C. assert (Nd : nisnan (dx i t) = false) by (apply NN, in_map, It).
  specialize (C ltac:(lia) Nd (conj NT AT)).
  destruct (C68_value _ _ _ _ _ _ _ _ H') as (_ & _ & C'). cbn [vantage sampled] in C'. rewrite seq_length in C'.
  specialize (C' i t Hi Ht). rewrite L1 in C.
  apply (fraction_unique (nrow Xt) _ _ _ C).
  rewrite C'. eapply fraction_ext; [|apply farther_fraction]. intros l Hl. cbv beta. rewrite !seq_nth by assumption. cbn [Nat.add].
  fold (dx i t) (dx i l) (dt t l).
  assert (G1 : ~ (exists p, p <= j /\ nth p nb 0 = l) <-> nlt (dx i t) (dx i l) = true).
  { split.
    - intros Np. apply NF; [exact Hj|exact Hl|]. intros I. apply in_firstn in I as (p & P1 & P2 & P3). apply Np. exists p. split; [lia|exact P3].
    - intros Lt (p & P1 & P2). destruct (Nat.eq_dec p j) as [->|Hne].
      + fold t in P2. subst l. rewrite (nlt_irrefl f32_cmp) in Lt. discriminate.
      + assert (L : nlt (dx i (nth p nb 0)) (dx i t) = true).
        { apply NF; [lia|exact Ht|]. intros I. apply in_firstn in I as (q & Q1 & Q2 & Q3).
          assert (q = j); [|lia]. apply (proj1 (NoDup_nth nb 0) ND); [lia|lia|exact Q3]. }
        rewrite P2 in L. apply nlt_asym32 in L. congruence. }
  assert (G2 : l <> t -> (~ (exists p, p < k /\ nth p nt 0 = l /\ nle (nth p (map (dt t) nt) nnan) (dx i t) = true) <-> nlt (dx i t) (dt t l) = true)).
  { intros Hlt. assert (Il : In l nt).
    { apply (Permutation_in _ (Permutation_sym PT)). apply filter_In. split; [apply in_seq; lia|]. apply negb_true_iff, Nat.eqb_neq, Hlt. }
    assert (Nl : nisnan (dt t l) = false) by (apply NT, in_map, Il).
    assert (Em : forall p, p < k -> nth p (map (dt t) nt) nnan = dt t (nth p nt 0)).
    { intros p Hp. rewrite (nth_indep _ nnan (dt t 0)) by (rewrite map_length; lia). apply map_nth. }
    split.
    - intros Np. destruct (nlt (dx i t) (dt t l)) eqn:E; [reflexivity|]. exfalso. apply Np.
      apply (In_nth _ _ 0) in Il as (p & Hp & Ep). exists p. split; [lia|]. split; [exact Ep|]. rewrite Em by lia. rewrite Ep.
      rewrite (nle_not_lt f32_cmp) by auto. now rewrite E.
    - intros Lt (p & P1 & P2 & P3). rewrite Em in P3 by exact P1. rewrite P2 in P3. rewrite (nle_not_lt f32_cmp) in P3 by auto. rewrite Lt in P3. discriminate. }
  rewrite G1. split.
  - intros (Hlt & A1 & A2). split; [exact A1|]. now apply G2.
  - intros (A1 & A2). assert (Hlt : l <> t) by (intros ->; rewrite (nlt_irrefl f32_cmp) in A1; discriminate).
    split; [exact Hlt|]. split; [exact A1|]. now apply G2.
Qed.

(** LSH: the same with the two answers to find_near_neighbors, for every worker
    count and schedule. *)
Theorem C73_lsh_value :
  forall near k n_jobs (Xt X : arr2 f32) test R,
    transform_mp_lsh f32_of near k n_jobs Xt X test R ->
    nrow R = nrow X /\ ncol R = k /\
    forall i j, i < nrow X -> j < k ->
      let '(nb, dist) := nth i test ([], []) in let d := nth j dist nnan in
      one_minus_fraction (nrow Xt)
        (fun l => ~ In l (near (at2 X i) d) /\ ~ In l (near (at2 Xt (nth j nb 0)) d)) (at2 R i j).
Proof.
  intros near k nj Xt X test R H.
  assert (G : nrow R = nrow X /\ ncol R = k /\ forall i j, i < nrow X -> j < k -> at2 R i j = mp_lsh_cell f32_of near Xt X test i j).
  { destruct H as [Hj|buf Hj P].
    - destruct (for_shape (nrow X) (fun i M => setrow M i 0 k (mp_lsh_cell f32_of near Xt X test i)) (full2 (nrow X) k nnan)) as (A & B); [intros; split; reflexivity|].
      split; [exact A|]. split; [exact B|]. intros i j Hi Hj'. rewrite for_rows by lia. destruct (Nat.ltb_spec i (nrow X)); [|lia]. reflexivity.
    - split; [reflexivity|]. split; [reflexivity|]. intros i j Hi Hj'. cbn [at2].
      apply (pool_run_fun cell_eq cell_eq_spec _ _ _ (fun c => mp_lsh_cell f32_of near Xt X test (fst c) (snd c))) with (c := (i, j)) in P.
      + apply P. eexists. split; [apply in_map_iff; exists i; split; [reflexivity|apply in_seq; lia]|].
        apply in_map_iff. exists j. split; [reflexivity|]. apply in_seq. lia.
      + intros t c v It Iw. apply in_map_iff in It as (i' & <- & _). apply in_map_iff in Iw as (j' & Ej & _). injection Ej as <- <-. reflexivity. }
  destruct G as (A & B & C). split; [exact A|]. split; [exact B|]. intros i j Hi Hj. rewrite (C i j Hi Hj). unfold mp_lsh_cell.
  destruct (nth i test ([], [])) as (nb & dist). cbn [fst snd]. apply ann_cell.
Qed.

(** DEFECT: for metric='cosine' the LSH index is built on negative inner products,
    but queried with the cosine distance as threshold.  If no inner product is
    negative (as for counts or term frequencies), and the index answers every
    object whose negative inner product is below the threshold, all objects are
    answered and every value at a positive distance is 1. *)
Theorem C73_lsh_cosine :
  forall near (neg_inner : (nat -> f32) -> (nat -> f32) -> f32) k n_jobs (Xt X : arr2 f32) test R i j,
    transform_mp_lsh f32_of near k n_jobs Xt X test R ->
    0 < nrow Xt -> (Z.of_nat (nrow Xt) <= 2 ^ 53)%Z -> i < nrow X -> j < k ->
    (forall l, l < nrow Xt -> nle (neg_inner (at2 X i) (at2 Xt l)) n0 = true) ->
    (forall l d, l < nrow Xt -> nlt (neg_inner (at2 X i) (at2 Xt l)) d = true -> In l (near (at2 X i) d)) ->
    nlt n0 (nth j (snd (nth i test ([], []))) nnan) = true ->
    neq (at2 R i j) n1 = true.
Proof.
  intros near ni k nj Xt X test R i j H Hn Hb Hi Hj Hneg Hnear Hd.
  destruct (C73_lsh_value _ _ _ _ _ _ _ H) as (_ & _ & C). specialize (C i j Hi Hj).
  destruct (nth i test ([], [])) as (nb & dist). cbn [snd] in Hd. destruct C as (U & _ & HU & ->).
  assert (E : U = []).
  { destruct U as [|l U]; [reflexivity|]. destruct (proj1 (HU l) (or_introl eq_refl)) as (Hl & N1 & _). exfalso. apply N1. apply Hnear; [exact Hl|].
    exact (P_ApproxLS.nle_nlt_trans f32_cmp _ _ _ (Hneg l Hl) Hd). }
  subst U. now apply f32_of_compl_0.
Qed.

(** the reference search is a legal one *)
Lemma search_right_ok : searchr_ok (search_right (V := f32)).
Proof.
  intros l v. induction l as [|x l IH]; intros NN As; cbn [search_right].
  - split; [cbn; lia|]. split; intros p d Hp; [lia|cbn; lia].
  - destruct (nle x v) eqn:E.
    + destruct IH as (A & B & C).
      { intros y [<-|Hy]; apply NN; [now left|right; now right]. }
      { intros p q d Hpq Hq. apply (As (S p) (S q) d); cbn; lia. }
      split; [cbn; lia|]. split.
      * intros [|p] d Hp; [exact E|]. cbn. apply B. lia.
      * intros [|p] d Hp Hl; [lia|]. cbn in *. apply C; lia.
    + split; [cbn; lia|]. split; [intros p d Hp; lia|]. intros p d _ Hp.
      assert (Nx : nisnan x = false) by (apply NN; right; now left). assert (Nv : nisnan v = false) by (apply NN; now left).
      assert (Lv : nlt v x = true) by (rewrite (nle_not_lt f32_cmp) in E by assumption; now apply negb_false_iff in E).
      specialize (As 0 p d (Nat.le_0_l p) Hp). cbn [nth] in As. 
      assert (Np : nisnan (nth p (x :: l) d) = false) by (apply NN; right; now apply nth_In).
      destruct p as [|p]; [exact Lv|]. cbn [nth] in *.
      rewrite (nle_not_lt f32_cmp) in As by assumption.
      destruct (nlt v (nth p l d)) eqn:F; [reflexivity|]. exfalso.
      assert (S1 : sle (nth p l d) v = true) by (rewrite (P_LS.sle_nle) by assumption; rewrite (nle_not_lt f32_cmp) by assumption; now rewrite F).
      assert (S2 : sle x (nth p l d) = true) by (rewrite (P_LS.sle_nle) by assumption; rewrite (nle_not_lt f32_cmp) by assumption; exact As).
      pose proof (P_Neighbors.sle_not_lt f32_cmp _ _ (sle_trans f32_cmp _ _ _ S2 S1)) as G. congruence.
Qed.

(** three objects on a line; the index answers the two others *)
Definition fz (z : Z) : f32 := f32_of (nofZ z).
Example ex_C73_hnsw :
  let ans_train := [[(0, fz 0); (1, fz 1); (2, fz 3)]; [(1, fz 0); (0, fz 1); (2, fz 2)]; [(2, fz 0); (1, fz 2); (0, fz 3)]] in
  let ans_test := [[(0, fz 1); (1, fz 2)]] in
  searchr_ok (search_right (V := f32)) /\
  (exists R, mp_hnsw f32_of search_right "sqeuclidean" 2 ans_train ans_test (Ok R)) /\
  exists train, hnsw_filtering "sqeuclidean" 2 ans_train = Ok train /\ forall t, t < 3 -> ascending_row (snd (nth t train ([], []))).
Proof.
  intros at_ ate. split; [exact search_right_ok|]. split.
  - eexists. eapply mh_run; [reflexivity|reflexivity|]. apply pool_run_exists.
  - eexists. split; [reflexivity|]. intros [|[|[|t]]] Ht; try lia; (split;
      [intros x Hx; cbn [nth map fst snd conv_row pad app repeat length Nat.sub] in Hx; repeat (destruct Hx as [<-|Hx]; [vm_compute; reflexivity|]); destruct Hx
      |intros [|[|p]] [|[|q]] d Hpq Hq; try lia; try (vm_compute; reflexivity); cbn in Hq; lia]).
Qed.
Example ex_C73_lsh :
  let X : arr2 f32 := Arr2 2 1 (fun i _ => fz (Z.of_nat i)) in
  let near (u : nat -> f32) (d : f32) := [0; 1] in
  exists R, transform_mp_lsh f32_of near 1 2 X X [([1], [fz 1]); ([0], [fz 1])] R /\ nlt n0 (fz 1) = true.
Proof.
  intros X near. eexists. split; [|vm_compute; reflexivity]. apply tml_pool; [discriminate|]. apply pool_run_exists.
Qed.

Print Assumptions C73_hnsw_value.
Print Assumptions C73_hnsw_schedules.
Print Assumptions C73_hnsw_range.
Print Assumptions C73_hnsw_exact.
Print Assumptions C73_lsh_value.
Print Assumptions C73_lsh_cosine.
