(** Renaming objects: neighbour lists and occurrences. *)
From Coq Require Import String.
From Coq Require Import ZArith List Arith Lia Bool Permutation Reals.
From Verif Require Import Py Num Arr Sort Conc S_Neighbors S_Relabel P_Neighbors M_IO M_Hubness P_Hubness P_HubnessMain P_Skew.
Import ListNotations.
Local Open Scope nat_scope.

Lemma renaming_sym n p q : renaming n p q -> renaming n q p.
Proof. intros H i Hi. specialize (H i Hi). tauto. Qed.
Lemma renaming_inj n p q x y : renaming n p q -> x < n -> y < n -> p x = p y -> x = y.
Proof. intros H Hx Hy E. pose proof (H x Hx) as (_ & _ & A & _). pose proof (H y Hy) as (_ & _ & B & _). rewrite <- A, <- B. now rewrite E. Qed.
Lemma renaming_perm n p q : renaming n p q -> Permutation (map p (seq 0 n)) (seq 0 n).
Proof.
  intros H. apply NoDup_Permutation_bis.
  - assert (G : forall l, (forall x, In x l -> x < n) -> NoDup l -> NoDup (map p l)).
    { induction l as [|x l IH]; intros Hl Nd; cbn; [constructor|]. inversion Nd as [|? ? N1 N2]; subst. constructor.
      - intros Hin. apply in_map_iff in Hin as (y & E & Hy). apply (renaming_inj n p q) in E; [|exact H|apply Hl; now right|apply Hl; now left].
        subst. contradiction.
      - apply IH; [intros; apply Hl; now right|exact N2]. }
    apply G; [intros x Hx; apply in_seq in Hx; lia|apply seq_NoDup].
  - rewrite map_length. lia.
  - intros x Hx. apply in_map_iff in Hx as (y & <- & Hy). apply in_seq in Hy. apply in_seq. destruct (H y ltac:(lia)). lia.
Qed.
Lemma filter_perm {A} (f : A -> bool) l l' : Permutation l l' -> Permutation (filter f l) (filter f l').
Proof.
  intros P. induction P as [|x l l' P IH|x y l|l l' l'' P1 IH1 P2 IH2]; cbn [filter].
  - apply perm_nil.
  - destruct (f x); [now constructor|assumption].
  - destruct (f x), (f y); try reflexivity. apply perm_swap.
  - now transitivity (filter f l').
Qed.
Lemma count_if_renamed f n p q : renaming n p q -> count_if (fun i => f (p i)) n = count_if f n.
Proof.
  intros H. unfold count_if. rewrite <- (map_length p (filter _ _)).
  assert (E : map p (filter (fun i => f (p i)) (seq 0 n)) = filter f (map p (seq 0 n))).
  { generalize (seq 0 n). induction l as [|x l IH]; [reflexivity|]. cbn. destruct (f (p x)); cbn; now rewrite IH. }
  rewrite E. apply Permutation_length. apply filter_perm. exact (renaming_perm n p q H).
Qed.

Lemma knn_renamed n p q b k nn : renaming n p q -> 
  knn_list (fun x y => b (p x) (p y)) n k nn -> knn_list b n k (map p nn).
Proof.
  intros H K. pose proof (knn_len _ _ _ _ K) as L. pose proof (knn_range _ _ _ _ K) as R.
  assert (Nth : forall a, a < k -> nth a (map p nn) 0 = p (nth a nn 0)).
  { intros a Ha. rewrite (nth_indep _ 0 (p 0)) by (rewrite map_length; lia). exact (map_nth p nn 0 a). }
  constructor.
  - now rewrite map_length.
  - assert (G : forall l, (forall x, In x l -> x < n) -> NoDup l -> NoDup (map p l)).
    { induction l as [|x l IH]; intros Hl Nd; cbn; [constructor|]. inversion Nd as [|? ? N1 N2]; subst. constructor.
      - intros Hin. apply in_map_iff in Hin as (y & E & Hy). apply (renaming_inj n p q) in E; [|exact H|apply Hl; now right|apply Hl; now left].
        subst. contradiction.
      - apply IH; [intros; apply Hl; now right|exact N2]. }
    apply G; [exact R|apply K].
  - intros x Hx. apply in_map_iff in Hx as (y & <- & Hy). apply (H y). auto.
  - intros a c Hac Hc. rewrite !Nth by lia. apply (knn_sorted _ _ _ _ K); lia.
  - intros x y Hx Hn Hy. apply in_map_iff in Hy as (z & <- & Hz).
    destruct (H x Hx) as (_ & Q & _ & E). rewrite <- E. apply (knn_best _ _ _ _ K); [exact Q| |exact Hz].
    intros Hin. apply Hn. apply in_map_iff. exists (q x). auto.
Qed.

Section Rename.
  Context {V : Type} {N : Num V} {toX : V -> xr} (CL : CmpLaws V N toX).

  Lemma usable_renamed metric (D : arr2 V) p q i x : nrow D = ncol D -> renaming (nrow D) p q -> i < nrow D -> x < nrow D ->
    usable metric (renamed p D) i x = usable metric D (p i) (p x).
  Proof.
    intros Hsq H Hi Hx. unfold usable, renamed. cbn [nrow ncol at2]. rewrite Hsq, Nat.eqb_refl.
    replace (p x =? p i) with (x =? i); [reflexivity|].
    destruct (Nat.eqb_spec x i) as [->|Hne]; [now rewrite Nat.eqb_refl|]. symmetry. apply Nat.eqb_neq. intros E.
    apply Hne. apply (renaming_inj (nrow D) p q); auto.
  Qed.

  Lemma rows_count (f : list nat -> bool) (rows : list (list nat)) n : length rows = n ->
    length (filter f rows) = count_if (fun i => f (nth i rows [])) n.
  Proof.
    intros <-. unfold count_if.
    assert (E : rows = map (fun i => nth i rows []) (seq 0 (length rows))).
    { apply (nth_ext _ _ [] []); [now rewrite map_length, seq_length|]. intros i Hi.
      rewrite (nth_indep (map _ _) [] (nth 0 rows [])) by (now rewrite map_length, seq_length).
      rewrite (map_nth (fun i => nth i rows []) (seq 0 (length rows)) 0 i), seq_nth by exact Hi. reflexivity. }
    rewrite E at 1. generalize (seq 0 (length rows)). induction l as [|x l IH]; [reflexivity|]. cbn [map filter].
    destruct (f (nth x rows [])); cbn [length]; now rewrite IH.
  Qed.

  Lemma serial_renamed argpart1 (AP1 : argpart_ok argpart1) argpart2 (AP2 : argpart_ok argpart2)
      sp1 sp2 (D : arr2 V) (k : nat) metric se1 se2 rps1 rps2 o1 o2 p q :
    nrow D = ncol D -> renaming (nrow D) p q -> rps_wf D rps1 -> rps_wf D rps2 ->
    (forall i, i < nrow D -> Nat.min k (ncol D - 1) <= count_if (usable metric D i) (ncol D) /\
       (forall x y, x < ncol D -> y < ncol D -> x <> y -> usable metric D i x = true -> usable metric D i y = true ->
          nearer metric (at2 D i x) (at2 D i y) = true \/ nearer metric (at2 D i y) (at2 D i x) = true)) ->
    hubness_serial argpart1 sp1 D (Z.of_nat k) metric se1 rps1 = Ok o1 ->
    hubness_serial argpart2 sp2 (renamed p D) (Z.of_nat k) metric se2 rps2 = Ok o2 ->
    (forall i, i < nrow D -> nth i (out_Dk o2) [] = map q (nth (p i) (out_Dk o1) [])) /\
    (forall i, i < nrow D -> nth i (out_Nk o2) 0 = nth (p i) (out_Nk o1) 0) /\
    hub_Sk o2 = hub_Sk o1.
  Proof.
    intros Hsq Hp R1 R2 Hord H1 H2.
    assert (Sq' : nrow (renamed p D) = ncol (renamed p D)) by exact Hsq.
    destruct (hubness_serial_inv argpart1 sp1 D _ metric se1 rps1 o1 H1) as (V1 & K1 & _ & _).
    assert (M1 : 0 < ncol D). { destruct (ncol D); [pose proof (hub_k_0 (Z.of_nat k)); lia|lia]. }
    destruct (serial_knn CL argpart1 AP1 sp1 D k metric se1 rps1) as (o1' & E1 & L1 & _ & G1); auto.
    destruct (serial_knn CL argpart2 AP2 sp2 (renamed p D) k metric se2 rps2) as (o2' & E2 & L2 & _ & G2); auto.
    rewrite E1 in H1. injection H1 as ->. rewrite E2 in H2. injection H2 as ->.
    change (ncol (renamed p D)) with (ncol D) in *. change (nrow (renamed p D)) with (nrow D) in *.
    assert (A : forall i, i < nrow D -> map p (nth i (out_Dk o2) []) = nth (p i) (out_Dk o1) []).
    { intros i Hi. destruct (Hp i Hi) as (Pi & _). destruct (Hord (p i) Pi) as (Hc & Ht).
      eapply (knn_list_unique (fun x y => nearer metric (eff metric D (p i) x) (eff metric D (p i) y)) (ncol D) (Nat.min k (ncol D - 1)))
        with (us := usable metric D (p i)); [|apply G1; exact Pi| | | | |exact Hc].
      - rewrite <- Hsq in *. apply (knn_renamed (nrow D) p q); [exact Hp|].
        eapply knn_list_ext; [|apply (G2 i Hi)]. intros x y Hx Hy. cbv beta. unfold eff.
        rewrite !(usable_renamed metric D p q) by auto. reflexivity.
      - cbv beta. intros x y z _ _ _. apply (nearer_trans CL).
      - cbv beta. intros x _. apply (nearer_irrefl CL).
      - cbv beta. intros x y _ _. apply (usable_beats CL).
      - cbv beta. intros x y Hx Hy Hne Ux Uy. unfold eff. rewrite Ux, Uy. now apply Ht. }
    assert (B : forall i, i < nrow D -> nth i (out_Dk o2) [] = map q (nth (p i) (out_Dk o1) [])).
    { intros i Hi. rewrite <- A, map_map by exact Hi. rewrite <- (map_id (nth i (out_Dk o2) [])) at 1. apply map_ext_in.
      intros x Hx. symmetry. apply (Hp x). rewrite Hsq. apply (knn_range _ _ _ _ (G2 i Hi)). exact Hx. }
    destruct (serial_conserved argpart1 AP1 sp1 D k metric se1 rps1 o1 R1 E1) as (LN1 & _ & _ & C1).
    destruct (serial_conserved argpart2 AP2 sp2 (renamed p D) k metric se2 rps2 o2 R2 E2) as (LN2 & _ & _ & C2).
    change (ncol (renamed p D)) with (ncol D) in *.
    assert (C : forall i, i < nrow D -> nth i (out_Nk o2) 0 = nth (p i) (out_Nk o1) 0).
    { intros i Hi. destruct (Hp i Hi) as (Pi & _). rewrite C1, C2 by lia.
      rewrite (rows_count _ _ (nrow D)) by exact L2. rewrite (rows_count _ _ (nrow D)) by exact L1.
      rewrite <- (count_if_renamed (fun j => existsb (Nat.eqb (p i)) (nth j (out_Dk o1) [])) (nrow D) p q Hp).
      apply count_if_ext. intros j Hj. rewrite <- A by exact Hj.
      assert (Q : forall l, (forall x, In x l -> x < nrow D) -> existsb (Nat.eqb i) l = existsb (Nat.eqb (p i)) (map p l)).
      { induction l as [|x l IH]; intros Hl; [reflexivity|]. cbn [existsb map]. rewrite IH by (intros; apply Hl; now right). f_equal.
        destruct (Nat.eqb_spec i x) as [->|Hne]; [now rewrite Nat.eqb_refl|]. symmetry. apply Nat.eqb_neq. intros E. apply Hne.
        apply (renaming_inj (nrow D) p q); auto. apply Hl. now left. }
      apply Q. intros x Hx. rewrite Hsq. apply (knn_range _ _ _ _ (G2 j Hj)). exact Hx. }
    split; [exact B|]. split; [exact C|].
    unfold hub_Sk. apply skew_perm. apply Permutation_map.
    assert (E : out_Nk o2 = map (fun i => nth i (out_Nk o1) 0) (map p (seq 0 (nrow D)))).
    { apply (nth_ext _ _ 0 0); [rewrite !map_length, seq_length; lia|]. intros i Hi. rewrite LN2, <- Hsq in Hi.
      rewrite C by exact Hi. rewrite map_map. rewrite (nth_indep (map _ _) 0 (nth (p 0) (out_Nk o1) 0)) by (rewrite map_length, seq_length; exact Hi).
      rewrite (map_nth (fun x => nth (p x) (out_Nk o1) 0) (seq 0 (nrow D)) 0 i). rewrite seq_nth by exact Hi. reflexivity. }
    rewrite E. transitivity (map (fun i => nth i (out_Nk o1) 0) (seq 0 (nrow D))).
    - apply Permutation_map. now apply (renaming_perm _ p q).
    - rewrite Hsq, <- LN1.
      assert (F : map (fun i => nth i (out_Nk o1) 0) (seq 0 (length (out_Nk o1))) = out_Nk o1); [|rewrite F; apply Permutation_refl].
      apply (nth_ext _ _ 0 0); [now rewrite map_length, seq_length|]. intros i Hi. rewrite map_length, seq_length in Hi.
      rewrite (nth_indep (map _ _) 0 (nth 0 (out_Nk o1) 0)) by (rewrite map_length, seq_length; exact Hi).
      rewrite (map_nth (fun x => nth x (out_Nk o1) 0) (seq 0 (length (out_Nk o1))) 0 i), seq_nth by exact Hi. reflexivity.
  Qed.
End Rename.
