(** Proofs about renaming the objects: secondary distances and the Goodman-Kruskal
    index (C132). *)
From Coq Require Import String.
From Coq Require Import ZArith List Arith Lia Bool Permutation Reals Lra.
From Verif Require Import Py Num NumT Arr Sort Conc S_Neighbors S_MP S_GK S_LS S_SNN S_Relabel.
From Verif Require Import P_Neighbors P_Relabel.
Import ListNotations.
Local Open Scope nat_scope.

Lemma renaming_eqb n p q x y : renaming n p q -> x < n -> y < n -> (p x =? p y) = (x =? y).
Proof.
  intros H Hx Hy. destruct (Nat.eqb_spec x y) as [->|Hne]; [apply Nat.eqb_refl|]. apply Nat.eqb_neq. intros E.
  apply Hne. now apply (renaming_inj n p q).
Qed.

(** *** counts of Mutual Proximity *)
Lemma farther_renamed {V} {N : Num V} (D : arr2 V) n p q i j d : renaming n p q -> i < n -> j < n ->
  farther_from_both (renamed p D) n i j d = farther_from_both D n (p i) (p j) d.
Proof.
  intros H Hi Hj. unfold farther_from_both. symmetry. rewrite <- (count_if_renamed _ n p q H). symmetry. apply count_if_ext.
  intros x Hx. cbn [renamed at2]. now rewrite !(renaming_eqb n p q).
Qed.
Lemma farther_swap {V} {N : Num V} (D : arr2 V) n i j d : farther_from_both D n i j d = farther_from_both D n j i d.
Proof. unfold farther_from_both. apply count_if_ext. intros x _. destruct (x =? i), (x =? j), (nlt d (at2 D i x)), (nlt d (at2 D j x)); reflexivity. Qed.
Lemma similar_renamed {V} {N : Num V} (D : arr2 V) n p q i j d : renaming n p q -> i < n -> j < n ->
  at_most_similar_to_both (renamed p D) n i j d = at_most_similar_to_both D n (p i) (p j) d.
Proof.
  intros H Hi Hj. unfold at_most_similar_to_both. symmetry. rewrite <- (count_if_renamed _ n p q H). symmetry. apply count_if_ext.
  intros x Hx. cbn [renamed at2]. now rewrite !(renaming_eqb n p q).
Qed.
Lemma similar_swap {V} {N : Num V} (D : arr2 V) n i j d : at_most_similar_to_both D n i j d = at_most_similar_to_both D n j i d.
Proof. unfold at_most_similar_to_both. apply count_if_ext. intros x _. destruct (x =? i), (x =? j), (nle (at2 D i x) d), (nle (at2 D j x) d); reflexivity. Qed.
Lemma symmetric_renamed {V} (D : arr2 V) p q : symmetric D -> renaming (nrow D) p q -> symmetric (renamed p D).
Proof. intros (Hsq & Hs) H. split; [exact Hsq|]. cbn [renamed nrow at2]. intros i j Hi Hj. apply Hs; now apply H. Qed.

(** *** edges under a renaming *)
Lemma NoDup_app_join {A} (l1 l2 : list A) : NoDup l1 -> NoDup l2 -> (forall x, In x l1 -> In x l2 -> False) -> NoDup (l1 ++ l2).
Proof.
  intros N1 N2 H. induction l1 as [|x l1 IH]; [exact N2|]. inversion N1 as [|? ? A1 A2]; subst. cbn. constructor.
  - rewrite in_app_iff. intros [X|X]; [contradiction|]. apply (H x); [now left|exact X].
  - apply IH; [exact A2|]. intros y Hy. apply H. now right.
Qed.
Definition redge (p : nat -> nat) (e : nat * nat) : nat * nat :=
  (Nat.min (p (fst e)) (p (snd e)), Nat.max (p (fst e)) (p (snd e))).
Lemma edges_NoDup n : NoDup (edges n).
Proof.
  unfold edges. generalize (seq_NoDup n 0). generalize (seq 0 n). induction l as [|i l IH]; intros Nd; cbn; [constructor|].
  inversion Nd as [|? ? N1 N2]; subst. apply NoDup_app_join.
  - apply FinFun.Injective_map_NoDup; [|apply seq_NoDup]. intros a b E. now injection E.
  - now apply IH.
  - intros (a, b) H1 H2. apply in_map_iff in H1 as (c & E & _). injection E as -> ->.
    apply in_flat_map in H2 as (i' & Hi & H2). apply in_map_iff in H2 as (c & E & _). injection E as -> ->. contradiction.
Qed.
Lemma edges_renamed n p q : renaming n p q -> Permutation (map (redge p) (edges n)) (edges n).
Proof.
  intros H. apply NoDup_Permutation_bis.
  - assert (G : forall l, (forall e, In e l -> fst e < snd e < n) -> NoDup l -> NoDup (map (redge p) l)).
    { induction l as [|(a, b) l IH]; intros Hl Nd; cbn; [constructor|]. inversion Nd as [|? ? N1 N2]; subst. constructor.
      - intros Hin. apply in_map_iff in Hin as ((c, d) & E & Hy). pose proof (Hl _ (or_introl eq_refl)) as L1. pose proof (Hl _ (or_intror Hy)) as L2.
        cbn [fst snd] in *. unfold redge in E. cbn [fst snd] in E. injection E as E1 E2.
        assert (Q : (p c = p a /\ p d = p b) \/ (p c = p b /\ p d = p a)) by lia.
        destruct Q as [(Q1 & Q2)|(Q1 & Q2)]; apply (renaming_inj n p q) in Q1; apply (renaming_inj n p q) in Q2; try lia; try assumption.
        subst. contradiction.
      - apply IH; [|assumption]. intros e He. apply Hl. now right. }
    apply G; [|apply edges_NoDup]. intros (a, b) He. now apply edges_spec in He.
  - rewrite map_length. reflexivity.
  - intros (a, b) Hin. apply in_map_iff in Hin as ((c, d) & E & Hy). apply edges_spec in Hy. apply edges_spec.
    unfold redge in E. cbn [fst snd] in E. injection E as <- <-.
    assert (p c <> p d) by (intros E; apply (renaming_inj n p q) in E; [lia|assumption|lia|lia]).
    destruct (H c) as (? & _); [lia|]. destruct (H d) as (? & _); [lia|]. lia.
Qed.
Lemma quadruples_renamed n lab lab' P P' p q : renaming n p q ->
  (forall i, i < n -> nth i lab' 0%Z = nth (p i) lab 0%Z) ->
  (forall e o, In e (edges n) -> In o (edges n) -> P' e o = P (redge p e) (redge p o)) ->
  quadruples n lab' P' = quadruples n lab P.
Proof.
  intros H Hl HP. unfold quadruples.
  set (f := fun q => within lab (fst q) && negb (within lab (snd q)) && P (fst q) (snd q)).
  assert (E : length (filter f (list_prod (edges n) (edges n))) =
              length (filter f (map (fun x => (redge p (fst x), redge p (snd x))) (list_prod (edges n) (edges n))))).
  { apply Permutation_length, filter_perm.
    assert (E2 : forall l1 l2, map (fun x => (redge p (fst x), redge p (snd x))) (list_prod l1 l2) = list_prod (map (redge p) l1) (map (redge p) l2)).
    { induction l1 as [|a l1 IH]; intros l2; cbn; [reflexivity|]. rewrite map_app, IH, !map_map. reflexivity. }
    rewrite E2.
    assert (Q : forall (l1 l1' l2 l2' : list (nat * nat)), Permutation l1 l1' -> Permutation l2 l2' -> Permutation (list_prod l1 l2) (list_prod l1' l2')).
    { intros l1 l1' l2 l2' P1 P2. transitivity (list_prod l1 l2').
      - clear P1. induction l1 as [|a l1 IH]; cbn; [constructor|]. apply Permutation_app; [now apply Permutation_map|assumption].
      - clear P2. induction P1 as [|x l l' P1 IH|x y l|l l' l'' P1 IH1 P2 IH2]; cbn.
        + constructor.
        + now apply Permutation_app_head.
        + rewrite !app_assoc. apply Permutation_app_tail, Permutation_app_comm.
        + now transitivity (list_prod l' l2'). }
    apply Q; symmetry; now apply (edges_renamed n p q). }
  rewrite E. clear E.
  assert (W : forall e, In e (edges n) -> within lab' e = within lab (redge p e)).
  { intros (a, b) He. apply edges_spec in He. unfold within, redge. cbn [fst snd]. rewrite !Hl by lia.
    destruct (Nat.le_ge_cases (p a) (p b)).
    - now rewrite Nat.min_l, Nat.max_r by assumption.
    - rewrite Nat.min_r, Nat.max_l by assumption. apply Z.eqb_sym. }
  assert (G : forall L, (forall x, In x L -> In (fst x) (edges n) /\ In (snd x) (edges n)) ->
     length (filter (fun q => within lab' (fst q) && negb (within lab' (snd q)) && P' (fst q) (snd q)) L) =
     length (filter f (map (fun x => (redge p (fst x), redge p (snd x))) L))).
  { induction L as [|(e, o) L IH]; intros HL; [reflexivity|]. cbn [map filter]. unfold f at 1. cbn [fst snd].
    destruct (HL _ (or_introl eq_refl)) as (He & Ho). cbn [fst snd] in He, Ho. rewrite !W, HP by assumption.
    specialize (IH (fun x Hx => HL x (or_intror Hx))).
    destruct (within lab (redge p e) && negb (within lab (redge p o)) && P (redge p e) (redge p o)); cbn [length]; now rewrite IH. }
  apply G. intros (e, o) He. now apply in_prod_iff in He.
Qed.

(** *** neighbourhoods of the local scaling methods *)
Lemma others_renamed {V} (D : arr2 V) n p q i : renaming n p q -> i < n ->
  Permutation (others (renamed p D) (training n None) i) (others D (training n None) (p i)).
Proof.
  intros H Hi. unfold others, training. cbn [renamed at2].
  assert (E : map (fun x => at2 D (p i) (p x)) (filter (fun x => negb (x =? i)) (seq 0 n)) =
              map (at2 D (p i)) (filter (fun x => negb (x =? p i)) (map p (seq 0 n)))).
  { assert (G : forall l, (forall x, In x l -> x < n) -> map (fun x => at2 D (p i) (p x)) (filter (fun x => negb (x =? i)) l) =
              map (at2 D (p i)) (filter (fun x => negb (x =? p i)) (map p l))).
    { induction l as [|x l IH]; intros Hl; [reflexivity|]. cbn [map filter]. rewrite (renaming_eqb n p q) by (auto; apply Hl; now left).
      destruct (x =? i); cbn [negb map]; rewrite IH by (intros; apply Hl; now right); reflexivity. }
    apply G. intros x Hx. apply in_seq in Hx. lia. }
  change (map (at2 (renamed p D) i)) with (map (fun x => at2 D (p i) (p x))).
  rewrite E. apply Permutation_map, filter_perm. now apply (renaming_perm n p q).
Qed.
Lemma kth_smallest_perm {V} {N : Num V} l l' k v : Permutation l l' -> kth_smallest l k v -> kth_smallest l' k v.
Proof.
  intros P (H1 & H2). split; [now apply (Permutation_in _ P)|].
  now rewrite <- (Permutation_length (filter_perm (fun x => nlt x v) _ _ P)), <- (Permutation_length (filter_perm (fun x => nle x v) _ _ P)).
Qed.
Lemma k_smallest_perm {V} {N : Num V} l l' k s : Permutation l l' -> k_smallest l k s -> k_smallest l' k s.
Proof. intros P (H1 & r & H2 & H3). split; [exact H1|]. exists r. split; [|exact H3]. now rewrite <- P. Qed.

(** *** sets of nearest neighbours *)
Lemma kset_unique b m k A B : (forall x y, x < m -> y < m -> x <> y -> b x y = true \/ b y x = true) ->
  kset b m k A -> kset b m k B -> forall x, In x A -> In x B.
Proof.
  intros T KA KB x Hx. destruct (in_dec Nat.eq_dec x B) as [|Hn]; [assumption|]. exfalso.
  assert (Ex : exists y, In y B /\ ~ In y A).
  { destruct (Forall_Exists_dec (fun y => In y A) (fun y => in_dec Nat.eq_dec y A) B) as [F|E].
    - exfalso. rewrite Forall_forall in F.
      assert (L : length (x :: B) <= length A).
      { apply NoDup_incl_length; [constructor; [exact Hn|apply KB]|]. intros y [<-|Hy]; auto. }
      cbn in L. rewrite (ks_len _ _ _ _ KA), (ks_len _ _ _ _ KB) in L. lia.
    - apply Exists_exists in E. exact E. }
  destruct Ex as (y & Hy & Hny).
  pose proof (ks_range _ _ _ _ KA x Hx) as Rx. pose proof (ks_range _ _ _ _ KB y Hy) as Ry.
  assert (Ne : x <> y) by (intros ->; contradiction).
  pose proof (ks_best _ _ _ _ KB x y Rx Hn Hy) as B1. pose proof (ks_best _ _ _ _ KA y x Ry Hny Hx) as B2.
  destruct (T x y Rx Ry Ne); congruence.
Qed.
Lemma kset_renamed b n k p q A : renaming n p q -> kset (fun x y => b (p x) (p y)) n k A -> kset b n k (map p A).
Proof.
  intros H K. constructor.
  - rewrite map_length. apply K.
  - assert (G : forall l, (forall x, In x l -> x < n) -> NoDup l -> NoDup (map p l)).
    { induction l as [|x l IH]; intros Hl Nd; cbn; [constructor|]. inversion Nd as [|? ? N1 N2]; subst. constructor.
      - intros Hin. apply in_map_iff in Hin as (y & E & Hy). apply (renaming_inj n p q) in E; [|exact H|apply Hl; now right|apply Hl; now left].
        subst. contradiction.
      - apply IH; [|assumption]. intros y Hy. apply Hl. now right. }
    apply G; apply K.
  - intros x Hx. apply in_map_iff in Hx as (y & <- & Hy). apply H. now apply (ks_range _ _ _ _ K).
  - intros x y Hx Hn Hy. apply in_map_iff in Hy as (z & <- & Hz). destruct (H x Hx) as (_ & Q1 & _ & Q2). rewrite <- Q2.
    apply (ks_best _ _ _ _ K); [exact Q1| |exact Hz]. intros Hin. apply Hn. rewrite <- Q2. now apply in_map.
Qed.
Lemma overlap_count a b n : NoDup a -> (forall x, In x a -> x < n) ->
  overlap a b = count_if (fun x => existsb (Nat.eqb x) a && existsb (Nat.eqb x) b) n.
Proof.
  intros Nd Hr. unfold overlap, count_if. apply Permutation_length. apply NoDup_Permutation.
  - now apply NoDup_filter.
  - apply NoDup_filter, seq_NoDup.
  - intros x. rewrite !filter_In, in_seq, andb_true_iff. split.
    + intros (H1 & H2). specialize (Hr x H1). repeat split; try lia; [|exact H2]. apply existsb_exists. exists x. now rewrite Nat.eqb_refl.
    + intros (_ & H1 & H2). split; [|exact H2]. apply existsb_exists in H1 as (y & Hy & E). apply Nat.eqb_eq in E. now subst.
Qed.
Lemma overlap_renamed n p q a b a' b' : renaming n p q ->
  NoDup a -> NoDup a' -> (forall x, In x a -> x < n) -> (forall x, In x a' -> x < n) ->
  (forall x, x < n -> In x a' <-> In (p x) a) -> (forall x, x < n -> In x b' <-> In (p x) b) ->
  overlap a' b' = overlap a b.
Proof.
  intros H N1 N2 R1 R2 Ea Eb. rewrite (overlap_count a b n), (overlap_count a' b' n) by assumption.
  symmetry. rewrite <- (count_if_renamed _ n p q H). symmetry. apply count_if_ext. intros x Hx.
  assert (G : forall u v, (In x u <-> In (p x) v) -> existsb (Nat.eqb x) u = existsb (Nat.eqb (p x)) v).
  { intros u v Huv. apply eq_true_iff_eq. rewrite !existsb_exists. split; intros (y & Hy & E); apply Nat.eqb_eq in E; subst y.
    - exists (p x). split; [now apply Huv|apply Nat.eqb_refl].
    - exists x. split; [now apply Huv|apply Nat.eqb_refl]. }
  now rewrite (G a' a (Ea x Hx)), (G b' b (Eb x Hx)).
Qed.
Lemma xmul_comm (x y : xr) : nmul x y = nmul y x.
Proof. destruct x, y; cbn; try reflexivity; try (f_equal; apply Rmult_comm); try (destruct (Req_EM_T _ _), (Rlt_dec _ _); reflexivity). Qed.
Lemma rank_total {V} {N : Num V} {toX} (CL : CmpLaws V N toX) metric (D : arr2 V) n a x y :
  (forall i x, i < n -> x < n -> x <> i -> nisfin (at2 D i x) = true) ->
  (forall i x y, i < n -> x < n -> y < n -> x <> y -> x <> i -> y <> i -> neq (at2 D i x) (at2 D i y) = false) ->
  a < n -> x < n -> y < n -> x <> y ->
  nearer metric (rank_value metric D a x) (rank_value metric D a y) = true \/ nearer metric (rank_value metric D a y) (rank_value metric D a x) = true.
Proof.
  intros Hf Ht Ha Hx Hy Hxy. unfold nearer, rank_value, worst.
  pose proof (Hf a x Ha Hx) as Fx. pose proof (Hf a y Ha Hy) as Fy. pose proof (Ht a x y Ha Hx Hy Hxy) as T.
  rewrite (cl_fin _ _ _ CL) in Fx, Fy. rewrite (cl_eq _ _ _ CL) in T. rewrite !(cl_lt _ _ _ CL).
  destruct (Nat.eqb_spec x a) as [->|Nx], (Nat.eqb_spec y a) as [->|Ny]; [congruence| | |].
  - specialize (Fy Ny). destruct (is_sim metric); rewrite ?(cl_inf _ _ _ CL), ?(cl_ninf _ _ _ CL); destruct (toX (at2 D a y)); try discriminate; auto.
  - specialize (Fx Nx). destruct (is_sim metric); rewrite ?(cl_inf _ _ _ CL), ?(cl_ninf _ _ _ CL); destruct (toX (at2 D a x)); try discriminate; auto.
  - specialize (Fx Nx). specialize (Fy Ny). specialize (T Nx Ny). destruct (toX (at2 D a x)) as [| |u|], (toX (at2 D a y)) as [| |w|]; try discriminate.
    cbn in *. destruct (Req_EM_T u w) as [|Nuw]; [discriminate|].
    destruct (is_sim metric), (Rlt_dec u w), (Rlt_dec w u); auto; exfalso; lra.
Qed.
