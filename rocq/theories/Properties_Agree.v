(** Property C167: the function hubness, hubness_from_vectors and the class
    Hubness find the same neighbours and occurrences wherever "the k nearest
    others" is unambiguous, and where they part. *)
From Coq Require Import String.
From Coq Require Import ZArith List Arith Lia Bool Permutation.
From Verif Require Import Py Num Arr Sort Conc S_Neighbors S_HubnessClass S_Agree P_Neighbors M_Hubness M_Dist M_KNN M_HubnessClass.
From Verif Require Import P_Hubness P_HubnessMain P_HubnessClass P_HubnessClass2 P_HubnessClass3.
Import ListNotations.
Local Open Scope nat_scope.

Section Row.
  Variable D : arr2 f64.
  Hypothesis U : unambiguous D.
  Notation better i := (fun x y => nlt (at2 D i x) (at2 D i y)).
  Notation bettere i := (fun x y => nearer "distance" (eff "distance" D i x) (eff "distance" D i y)).

  Lemma un_usable i x : i < nrow D -> x < ncol D -> usable "distance" D i x = negb (x =? i).
  Proof.
    intros Hi Hx. unfold usable. rewrite (un_finite _ U) by assumption.
    now rewrite (un_square _ U), Nat.eqb_refl.
  Qed.
  Lemma un_count i : i < nrow D -> ncol D - 1 <= count_if (usable "distance" D i) (ncol D).
  Proof.
    intros Hi. pose proof (un_square _ U) as Sq. unfold count_if.
    assert (P : Permutation (seq 0 (ncol D)) (i :: filter (fun y => negb (y =? i)) (seq 0 (ncol D)))).
    { apply perm_pull; [apply seq_NoDup|apply in_seq; lia]. }
    apply Permutation_length in P. rewrite seq_length in P. cbn [length] in P.
    replace (filter (usable "distance" D i) (seq 0 (ncol D))) with (filter (fun y => negb (y =? i)) (seq 0 (ncol D))); [lia|].
    apply filter_ext_in. intros x Hx. apply in_seq in Hx. now rewrite un_usable by lia.
  Qed.
  Lemma un_unique i k L1 L2 : i < nrow D -> k < ncol D ->
    knn_list (bettere i) (ncol D) k L1 -> knn_list (bettere i) (ncol D) k L2 -> L1 = L2.
  Proof.
    intros Hi Hk H1 H2. pose proof (un_square _ U) as Sq.
    apply (knn_list_unique (bettere i) (ncol D) k L1 L2 (usable "distance" D i)); auto.
    - intros x y z _ _ _. cbv beta. unfold nearer. cbn. apply (nlt_trans f64_cmp).
    - intros x _. cbv beta. unfold nearer. cbn. apply (nlt_irrefl f64_cmp).
    - intros x y _ _. apply (usable_beats f64_cmp).
    - intros x y Hx Hy Hne Ux Uy. unfold eff. rewrite Ux, Uy. unfold nearer. cbn.
      rewrite un_usable in Ux, Uy by assumption. apply negb_true_iff, Nat.eqb_neq in Ux, Uy.
      now apply (un_ties _ U).
    - pose proof (un_count i Hi). lia.
  Qed.
  Lemma others_eff i k L : i < nrow D -> knn_others (better i) (ncol D) k i L -> knn_list (bettere i) (ncol D) k L.
  Proof.
    intros Hi [K1 K2 K3 K4 K5]. 
    assert (Ev : forall x, x < ncol D -> x <> i -> eff "distance" D i x = at2 D i x).
    { intros x Hx Hn. unfold eff. rewrite un_usable by assumption. apply Nat.eqb_neq in Hn. now rewrite Hn. }
    constructor; auto.
    - intros x Hx. now apply K3.
    - intros a b Hab Hb. unfold nearer. cbn. destruct (K3 (nth a L 0)); [apply nth_In; lia|].
      destruct (K3 (nth b L 0)); [apply nth_In; lia|]. rewrite !Ev by assumption. now apply K4.
    - intros x y Hx Hn Hy. destruct (K3 y Hy) as (Hy1 & Hy2). destruct (Nat.eq_dec x i) as [->|Hxi].
      + assert (B : nearer "distance" (eff "distance" D i y) (eff "distance" D i i) = true).
        { apply (usable_beats f64_cmp); rewrite un_usable by assumption.
          - apply Nat.eqb_neq in Hy2. now rewrite Hy2.
          - now rewrite Nat.eqb_refl. }
        change (nlt (eff "distance" D i y) (eff "distance" D i i) = true) in B.
        change (nlt (eff "distance" D i i) (eff "distance" D i y) = false).
        destruct (nlt (eff "distance" D i i) (eff "distance" D i y)) eqn:E; [|reflexivity].
        pose proof (nlt_trans f64_cmp _ _ _ E B) as T. now rewrite (nlt_irrefl f64_cmp) in T.
      + unfold nearer. cbn. rewrite !Ev by assumption. now apply K5.
  Qed.
End Row.

Lemma bincount_grows l n : n <= length (bincount l n).
Proof. unfold bincount. rewrite map_length, seq_length. lia. Qed.
Lemma eq_then_lt (x z y : f64) : neq x z = true -> nlt z y = true -> nlt x y = true.
Proof.
  rewrite (cl_eq _ _ _ f64_cmp), !(cl_lt _ _ _ f64_cmp). generalize (f2x x), (f2x z), (f2x y). intros; xr_tac.
Qed.
Lemma lt_not_eq (z y : f64) : nlt z y = true -> neq y z = false.
Proof.
  rewrite (cl_eq _ _ _ f64_cmp), !(cl_lt _ _ _ f64_cmp). generalize (f2x z), (f2x y). intros; xr_tac.
Qed.
Lemma vclean (D : arr2 f64) i x : nisfin (at2 D i x) = true -> (if nisfin (at2 D i x) then at2 D i x else ninf) = at2 D i x.
Proof. now intros ->. Qed.

(** precomputed square matrices with self distances, either hubness function
    (one process or a pool with any schedule), any batch size and number of
    workers of the class, any shuffles, any two argpartitions within numpy's
    contract: both succeed, with the same neighbour lists and occurrences *)
Theorem C167_function_and_class :
  forall argpart1, argpart_ok argpart1 -> forall argpart2, argpart_ok argpart2 ->
  forall (D : arr2 f64), unambiguous D ->
  forall sparse se rps1 k, 1 <= k -> k < nrow D ->
    (forall i, i < nrow D -> Permutation (rps1 i) (seq 0 (ncol D))) ->
  forall r1, (r1 = hubness_serial argpart1 sparse D (Z.of_nat k) "distance" se rps1 \/
              hubness_parallel argpart1 sparse D (Z.of_nat k) "distance" se rps1 false r1) ->
  forall rdist vsum vpow (hub_size : f64) bs n_jobs rps2 r2, in_wf (InDense D) rps2 ->
    fit_transform rdist vsum vpow argpart2 "precomputed" k hub_size bs n_jobs rps2 true (InDense D) None r2 ->
    exists o f, r1 = Ok o /\ r2 = Ok f /\ f_nn f = out_Dk o /\ f_occ f = out_Nk o /\
      forall i, i < nrow D -> knn_others (fun x y => nlt (at2 D i x) (at2 D i y)) (ncol D) k i (nth i (f_nn f) []).
Proof.
  intros argpart1 AP1 argpart2 AP2 D U sparse se rps1 k Hk1 Hk Hrp r1 Hr1 rdist vsum vpow hs bs nj rps2 r2 Hw H.
  pose proof (un_square _ U) as Sq.
  assert (G1 : exists o, r1 = Ok o /\ length (out_Dk o) = nrow D /\ out_Nk o = bincount (concat (out_Dk o)) (ncol D) /\
      forall i, i < nrow D ->
        knn_list (fun x y => nearer "distance" (eff "distance" D i x) (eff "distance" D i y))
                 (ncol D) (Nat.min k (ncol D - 1)) (nth i (out_Dk o) [])).
  { destruct Hr1 as [->|Hr1].
    - apply (serial_knn f64_cmp); auto; lia.
    - apply (parallel_knn f64_cmp argpart1 AP1 sparse D k "distance" se rps1); auto; lia. }
  destruct G1 as (o & -> & Lo & No & Ko). rewrite Nat.min_l in Ko by lia.
  inversion H; subst; try congruence. cbv zeta in *. rewrite Sq, Nat.eqb_refl. cbn [andb].
  destruct (k_neighbors_precomputed argpart2 D (zarange 0 (Z.of_nat (1 + k))) 1 (1 + k) rps2) as [nn|e] eqn:E.
  2:{ exfalso. unfold k_neighbors_precomputed in E. apply mapM_raise in E as (i & Hi & E). apply in_seq in Hi.
      set (d := map (fun v => if nisfin v then v else ninf) (rowl D i)) in *.
      assert (Ld : length d = ncol D) by (unfold d, rowl; now rewrite !map_length, seq_length).
      destruct (row_nn_spec f64_cmp argpart2 AP2 1 k (match rps2 with None => None | Some f => Some (f i) end) d) as (L & _ & E').
      - destruct rps2 as [g|]; cbn in *; [|exact I]. rewrite Ld. apply Hw. lia.
      - lia.
      - rewrite E' in E. discriminate. }
  cbn [bind]. destruct (measures vsum vpow k hs (nrow D) (ncol D) nn) as [f|e] eqn:Em.
  2:{ exfalso. unfold measures in Em. unfold guard in Em. pose proof (bincount_grows (concat nn) (ncol D)).
      destruct (Nat.eqb_spec (length (bincount (concat nn) (ncol D))) 0); [lia|]. discriminate. }
  pose proof (measures_nn vsum vpow k hs (nrow D) (ncol D) nn f Em) as (En & Eo & _).
  pose proof (pre_rows f64_cmp argpart2 AP2 D 1 k rps2 nn Hw E) as (Ln & HR).
  assert (HO : forall i, i < nrow D -> knn_others (fun x y => nlt (at2 D i x) (at2 D i y)) (ncol D) k i (nth i nn [])).
  { intros i Hi. destruct (HR i Hi) as (_ & L & HL & ->). apply knn_drop_self; [|lia|intros; now apply (un_self _ U)].
    eapply knn_list_ext; [|exact HL]. intros x y Hx Hy. cbv beta.
    now rewrite !vclean by (now apply (un_finite _ U)). }
  exists o, f. rewrite En, Eo, No. rewrite <- Sq in Em. rewrite Sq in Em. split; [reflexivity|]. split; [assumption|].
  assert (EQ : nn = out_Dk o).
  { apply (nth_ext _ _ [] []); [lia|]. intros i Hi. rewrite Ln in Hi.
    apply (un_unique D U i k); auto; [lia|]. apply others_eff; auto. }
  rewrite <- EQ. split; [reflexivity|]. split; [reflexivity|]. intros i Hi. apply HO. lia.
Qed.

(** k = n or more: the function takes n - 1 neighbours, the class fails *)
Theorem C167_large_k :
  forall argpart1, argpart_ok argpart1 -> forall argpart2, argpart_ok argpart2 ->
  forall (D : arr2 f64) sparse se rps1 k, nrow D = ncol D -> 0 < nrow D -> nrow D <= k ->
    (forall i, i < nrow D -> Permutation (rps1 i) (seq 0 (ncol D))) ->
  forall rdist vsum vpow (hub_size : f64) bs n_jobs rps2 r2, in_wf (InDense D) rps2 ->
    fit_transform rdist vsum vpow argpart2 "precomputed" k hub_size bs n_jobs rps2 true (InDense D) None r2 ->
    r2 = Raise ValueError /\
    exists o, hubness_serial argpart1 sparse D (Z.of_nat k) "distance" se rps1 = Ok o /\
      forall i, i < nrow D -> length (nth i (out_Dk o) []) = nrow D - 1.
Proof.
  intros argpart1 AP1 argpart2 AP2 D sparse se rps1 k Sq Hn Hk Hrp rdist vsum vpow hs bs nj rps2 r2 Hw H.
  split.
  - inversion H; subst; try congruence. cbv zeta in *. rewrite Sq, Nat.eqb_refl. cbn [andb].
    assert (E : k_neighbors_precomputed argpart2 D (zarange 0 (Z.of_nat (1 + k))) 1 (1 + k) rps2 = Raise ValueError).
    { unfold k_neighbors_precomputed. destruct (nrow D) as [|n] eqn:En; [lia|]. cbn [seq mapM].
      set (d := map (fun v => if nisfin v then v else ninf) (rowl D 0)) in *.
      assert (Ld : length d = ncol D) by (unfold d, rowl; now rewrite !map_length, seq_length).
      rewrite row_nn_bad; [reflexivity| |lia].
      destruct rps2 as [g|]; cbn in *; [|exact I]. rewrite Ld. apply Hw. lia. }
    rewrite E. reflexivity.
  - destruct (serial_knn f64_cmp argpart1 AP1 sparse D k "distance" se rps1) as (o & Eo & _ & _ & Ko); auto; [lia|].
    exists o. split; [assumption|]. intros i Hi. rewrite (knn_len _ _ _ _ (Ko i Hi)). lia.
Qed.

(** without has_self_distances the class lists every object as its own
    nearest neighbour, followed by what the function finds for k - 1 *)
Theorem C167_self_listed_first :
  forall argpart1, argpart_ok argpart1 -> forall argpart2, argpart_ok argpart2 ->
  forall (D : arr2 f64), unambiguous D ->
  forall sparse se rps1 k o, k < nrow D ->
    (forall i, i < nrow D -> Permutation (rps1 i) (seq 0 (ncol D))) ->
    hubness_serial argpart1 sparse D (Z.of_nat k) "distance" se rps1 = Ok o ->
  forall rdist vsum vpow (hub_size : f64) bs n_jobs rps2 f, in_wf (InDense D) rps2 ->
    fit_transform rdist vsum vpow argpart2 "precomputed" (1 + k) hub_size bs n_jobs rps2 false (InDense D) None (Ok f) ->
    forall i, i < nrow D -> nth i (f_nn f) [] = i :: nth i (out_Dk o) [].
Proof.
  intros argpart1 AP1 argpart2 AP2 D U sparse se rps1 k o Hk Hrp Ho rdist vsum vpow hs bs nj rps2 f Hw H i Hi.
  pose proof (un_square _ U) as Sq.
  destruct (serial_knn f64_cmp argpart1 AP1 sparse D k "distance" se rps1) as (o' & Eo & _ & _ & Ko); auto; [lia|].
  rewrite Eo in Ho. injection Ho as ->. rewrite Nat.min_l in Ko by lia.
  inversion H; subst; try congruence. cbv zeta in *. rewrite andb_false_r in *.
  match goal with G : bind _ _ = Ok f |- _ => apply bind_ok_inv in G as (nn & G1 & G); apply measures_nn in G as (E & _) end.
  apply (pre_rows f64_cmp argpart2 AP2 D 0 (1 + k)) in G1 as (_ & HR); [|exact Hw].
  destruct (HR i Hi) as (_ & L & HL & EL). rewrite E, EL. cbn [skipn].
  assert (HL' : knn_list (fun x y => nlt (at2 D i x) (at2 D i y)) (ncol D) (1 + k) L).
  { eapply knn_list_ext; [|exact HL]. intros x y Hx Hy. cbv beta. now rewrite !vclean by (now apply (un_finite _ U)). }
  assert (HO : knn_others (fun x y => nlt (at2 D i x) (at2 D i y)) (ncol D) k i (skipn 1 L)).
  { apply knn_drop_self; [assumption|lia|]. intros. now apply (un_self _ U). }
  assert (EQ : skipn 1 L = nth i (out_Dk o) []).
  { apply (un_unique D U i k); auto; [lia|]. apply others_eff; auto. }
  rewrite <- EQ. destruct HL' as [K1 K2 K3 K4 K5]. destruct L as [|h t]; [cbn in K1; lia|]. cbn [skipn]. f_equal.
  destruct (Nat.eq_dec h i) as [|Hne]; [assumption|exfalso].
  assert (Hh : h < ncol D) by (apply K3; now left).
  pose proof (un_self _ U i h Hi Hh Hne) as S.
  destruct (in_dec Nat.eq_dec i (h :: t)) as [Hin|Hout].
  - destruct Hin as [|Hin]; [congruence|]. apply (kno_range _ _ _ _ _ HO) in Hin. now apply Hin.
  - rewrite (K5 i h ltac:(lia) Hout (or_introl eq_refl)) in S. discriminate.
Qed.

(** vectors: hubness_from_vectors and the class on the vectors find what the
    function finds in the matrix of their distances *)
Theorem C167_vectors :
  forall argpart1, argpart_ok argpart1 -> forall argpart2, argpart_ok argpart2 -> forall argpart3, argpart_ok argpart3 ->
  forall rdist (X : arr2 f64), unambiguous (distances_of rdist X) ->
  forall sparse se rps1 k o1 o2, k < nrow X ->
    (forall i, i < nrow X -> Permutation (rps1 i) (seq 0 (nrow X))) ->
    hubness_serial argpart1 sparse (distances_of rdist X) (Z.of_nat k) "distance" se rps1 = Ok o1 ->
    hubness_from_vectors rdist argpart2 X None k = Ok o2 ->
  forall vsum vpow metric (hub_size : f64) bs n_jobs rps2 has_self f, (1 <= bs)%Z -> metric <> "precomputed"%string ->
    fit_transform rdist vsum vpow argpart3 metric k hub_size bs n_jobs rps2 has_self (InDense X) None (Ok f) ->
    o2 = o1 /\ f_nn f = out_Dk o1 /\ f_occ f = out_Nk o1.
Proof.
  intros argpart1 AP1 argpart2 AP2 argpart3 AP3 rdist X U sparse se rps1 k o1 o2 Hk Hrp Ho Hv
    vsum vpow metric hs bs nj rps2 hself f Hb Hm H.
  set (D := distances_of rdist X) in *.
  assert (Er : nrow D = nrow X) by reflexivity. assert (Ec : ncol D = nrow X) by reflexivity.
  destruct (serial_knn f64_cmp argpart1 AP1 sparse D k "distance" se rps1) as (o & Eo & Lo & No & Ko); auto; [lia|].
  rewrite Eo in Ho. injection Ho as ->. rewrite Nat.min_l in Ko by lia.
  assert (F : forall nn, length nn = nrow X ->
     (forall i, i < nrow X -> exists L, knn_list (fun x y => nlt (at2 D i x) (at2 D i y)) (nrow X) (1 + k) L /\ nth i nn [] = skipn 1 L) ->
     nn = out_Dk o1).
  { intros nn Ln HR. apply (nth_ext _ _ [] []); [lia|]. intros i Hi. rewrite Ln in Hi.
    destruct (HR i Hi) as (L & HL & ->). apply (un_unique D U i k); [lia|lia| |apply Ko; lia].
    apply others_eff; [assumption|lia|]. apply knn_drop_self; [assumption|lia|]. intros. apply (un_self _ U); assumption. }
  assert (F2 : out_Dk o2 = out_Dk o1).
  { unfold hubness_from_vectors in Hv. apply bind_ok_inv in Hv as ([] & _ & Hv). apply bind_ok_inv in Hv as (Dk & E & Hv).
    injection Hv as <-. cbn [out_Dk]. apply F; [apply mapM_length in E; now rewrite seq_length in E|].
    intros i Hi. assert (Hi' : i < length (seq 0 (nrow X))) by (now rewrite seq_length).
    pose proof (mapM_nth _ _ _ i 0 [] E Hi') as Er'. rewrite seq_nth in Er' by assumption. cbn [Nat.add] in Er'.
    apply bind_ok_inv in Er' as ([] & _ & Er'). apply bind_ok_inv in Er' as ([] & _ & Er').
    apply (row_nn_ok f64_cmp argpart2 AP2 1 k None) in Er' as (_ & L & HL & EL); [|exact I].
    assert (Lv : length (vec_row rdist X X i) = nrow X) by (unfold vec_row; now rewrite map_length, seq_length).
    rewrite Lv in HL. exists L. split; [|exact EL].
    eapply knn_list_ext; [|exact HL]. intros x y Hx Hy. cbv beta. unfold vat, vec_row.
    now rewrite !nth_map_seq by assumption. }
  assert (F3 : f_nn f = out_Dk o1 /\ f_occ f = bincount (concat (f_nn f)) (nrow X)).
  { inversion H; subst; try congruence. cbv zeta in *.
    match goal with G : bind _ _ = Ok f |- _ => apply bind_ok_inv in G as (nn & -> & G); apply measures_nn in G as (E & E' & _) end.
    match goal with G : k_neighbors _ _ _ _ _ _ _ _ _ _ _ _ |- _ =>
      apply (vec_rows f64_cmp rdist argpart3 AP3) in G as (L & HR); [|assumption] end.
    rewrite E, E'. split; [|reflexivity]. apply F; [assumption|]. intros i Hi. destruct (HR i Hi) as (_ & L' & HL & ->). exists L'. auto. }
  destruct F3 as (F3 & F4). rewrite F4, F3, No, Ec. split; [|auto].
  unfold hubness_from_vectors in Hv. apply bind_ok_inv in Hv as ([] & _ & Hv). apply bind_ok_inv in Hv as (Dk & E & Hv).
  injection Hv as <-. cbn [out_Dk] in F2. subst Dk. destruct o1 as [d1 n1]. cbn in *. now rewrite No.
Qed.

(** rectangular matrices of non-zero distances: the same *)
Theorem C167_queries :
  forall argpart1, argpart_ok argpart1 -> forall argpart2, argpart_ok argpart2 ->
  forall (D : arr2 f64), unambiguous_queries D ->
  forall sparse se rps1 k o, k < ncol D ->
    (forall i, i < nrow D -> Permutation (rps1 i) (seq 0 (ncol D))) ->
    hubness_serial argpart1 sparse D (Z.of_nat k) "distance" se rps1 = Ok o ->
  forall rdist vsum vpow (hub_size : f64) bs n_jobs rps2 has_self f, in_wf (InDense D) rps2 ->
    fit_transform rdist vsum vpow argpart2 "precomputed" k hub_size bs n_jobs rps2 has_self (InDense D) None (Ok f) ->
    f_nn f = out_Dk o /\ f_occ f = out_Nk o.
Proof.
  intros argpart1 AP1 argpart2 AP2 D U sparse se rps1 k o Hk Hrp Ho rdist vsum vpow hs bs nj rps2 hself f Hw H.
  destruct (serial_knn f64_cmp argpart1 AP1 sparse D k "distance" se rps1) as (o' & Eo & Lo & No & Ko); auto; [lia|].
  rewrite Eo in Ho. injection Ho as ->. rewrite Nat.min_l in Ko by lia.
  pose proof (uq_rect _ U) as Rc. apply Nat.eqb_neq in Rc.
  inversion H; subst; try congruence. cbv zeta in *. rewrite Rc in *. cbn [andb] in *.
  match goal with G : bind _ _ = Ok f |- _ => apply bind_ok_inv in G as (nn & G1 & G); apply measures_nn in G as (E & E' & _) end.
  apply (pre_rows f64_cmp argpart2 AP2 D 0 k) in G1 as (Ln & HR); [|exact Hw].
  assert (Us : forall i x, i < nrow D -> x < ncol D -> usable "distance" D i x = true).
  { intros i x Hi Hx. unfold usable. rewrite (uq_finite _ U), Rc, (uq_zero _ U) by assumption. reflexivity. }
  assert (EQ : nn = out_Dk o).
  { apply (nth_ext _ _ [] []); [lia|]. intros i Hi. rewrite Ln in Hi. destruct (HR i Hi) as (_ & L & HL & ->). cbn [skipn].
    eapply (knn_list_unique _ (ncol D) k _ _ (usable "distance" D i)); [|exact (Ko i Hi)| | | | |].
    - eapply knn_list_ext; [|exact HL]. intros x y Hx Hy. cbv beta.
      rewrite !vclean by (now apply (uq_finite _ U)). unfold eff, nearer. now rewrite !Us.
    - intros x y z _ _ _. cbv beta. unfold nearer. cbn. apply (nlt_trans f64_cmp).
    - intros x _. cbv beta. unfold nearer. cbn. apply (nlt_irrefl f64_cmp).
    - intros x y _ _. apply (usable_beats f64_cmp).
    - intros x y Hx Hy Hne _ _. unfold eff, nearer. rewrite !Us by assumption. cbn. now apply (uq_ties _ U).
    - unfold count_if. rewrite (filter_ext_in _ (fun _ => true)).
      + assert (A : forall l : list nat, filter (fun _ => true) l = l) by (induction l; cbn; congruence).
        rewrite A, seq_length. lia.
      + intros x Hx. apply in_seq in Hx. apply Us; lia. }
  rewrite E, E', No, EQ. auto.
Qed.

(** but the function takes a zero distance of a query for a self distance and
    never lists that training object, where the class lists it first *)
Theorem C167_zero_distance :
  forall argpart1, argpart_ok argpart1 -> forall argpart2, argpart_ok argpart2 ->
  forall (D : arr2 f64) i j, nrow D <> ncol D -> i < nrow D -> j < ncol D ->
    neq (at2 D i j) n0 = true ->
    (forall x, x < ncol D -> nisfin (at2 D i x) = true) ->
    (forall x, x < ncol D -> x <> j -> nlt n0 (at2 D i x) = true) ->
  forall sparse se rps1 k o, 1 <= k -> k < ncol D ->
    (forall i, i < nrow D -> Permutation (rps1 i) (seq 0 (ncol D))) ->
    hubness_serial argpart1 sparse D (Z.of_nat k) "distance" se rps1 = Ok o ->
  forall rdist vsum vpow (hub_size : f64) bs n_jobs rps2 has_self f, in_wf (InDense D) rps2 ->
    fit_transform rdist vsum vpow argpart2 "precomputed" k hub_size bs n_jobs rps2 has_self (InDense D) None (Ok f) ->
    ~ In j (nth i (out_Dk o) []) /\ hd_error (nth i (f_nn f) []) = Some j.
Proof.
  intros argpart1 AP1 argpart2 AP2 D i j Rc Hi Hj Hz Hfin Hpos sparse se rps1 k o Hk1 Hk Hrp Ho
    rdist vsum vpow hs bs nj rps2 hself f Hw H.
  destruct (serial_knn f64_cmp argpart1 AP1 sparse D k "distance" se rps1) as (o' & Eo & Lo & No & Ko); auto; [lia|].
  rewrite Eo in Ho. injection Ho as ->. rewrite Nat.min_l in Ko by lia.
  apply Nat.eqb_neq in Rc.
  assert (Lj : forall x, x < ncol D -> x <> j -> nlt (at2 D i j) (at2 D i x) = true).
  { intros x Hx Hn. specialize (Hpos x Hx Hn). now apply (eq_then_lt (at2 D i j) n0). }
  assert (Us : forall x, x < ncol D -> usable "distance" D i x = negb (x =? j)).
  { intros x Hx. unfold usable. rewrite Rc, Hfin by assumption. destruct (Nat.eqb_spec x j) as [->|Hn].
    - now rewrite Hz.
    - destruct (neq (at2 D i x) n0) eqn:E; [|reflexivity]. rewrite (lt_not_eq _ _ (Hpos x Hx Hn)) in E. discriminate. }
  split.
  - intros Hin. destruct (knn_no_self f64_cmp "distance" D i k _ (Ko i Hi)) as (_ & G).
    assert (U : usable "distance" D i j = true).
    { apply G; [|assumption]. unfold count_if.
      assert (P : Permutation (seq 0 (ncol D)) (j :: filter (fun y => negb (y =? j)) (seq 0 (ncol D)))).
      { apply perm_pull; [apply seq_NoDup|apply in_seq; lia]. }
      apply Permutation_length in P. rewrite seq_length in P. cbn [length] in P.
      replace (filter (usable "distance" D i) (seq 0 (ncol D))) with (filter (fun y => negb (y =? j)) (seq 0 (ncol D))); [lia|].
      apply filter_ext_in. intros x Hx. apply in_seq in Hx. now rewrite Us by lia. }
    rewrite Us, Nat.eqb_refl in U by assumption. discriminate.
  - inversion H; subst; try congruence. cbv zeta in *. rewrite Rc in *. cbn [andb] in *.
    match goal with G : bind _ _ = Ok f |- _ => apply bind_ok_inv in G as (nn & G1 & G); apply measures_nn in G as (E & E' & _) end.
    apply (pre_rows f64_cmp argpart2 AP2 D 0 k) in G1 as (Ln & HR); [|exact Hw].
    destruct (HR i Hi) as (_ & L & HL & EL). rewrite E, EL. cbn [skipn].
    destruct HL as [K1 K2 K3 K4 K5]. destruct L as [|h t]; [cbn in K1; lia|]. cbn. f_equal.
    destruct (Nat.eq_dec h j) as [|Hne]; [assumption|exfalso].
    assert (Hh : h < ncol D) by (apply K3; now left).
    pose proof (Lj h Hh Hne) as Sl.
    destruct (in_dec Nat.eq_dec j (h :: t)) as [Hin|Hout].
    + apply (In_nth _ _ 0) in Hin as (b & Hb & Eb). destruct b as [|b]; [cbn in Eb; congruence|].
      specialize (K4 0 (S b) ltac:(lia) ltac:(rewrite K1 in Hb; lia)). rewrite Eb in K4. cbn [nth] in K4.
      rewrite !vclean in K4 by (apply Hfin; assumption). congruence.
    + specialize (K5 j h Hj Hout (or_introl eq_refl)). rewrite !vclean in K5 by (apply Hfin; assumption). congruence.
Qed.

(** ** Cases: four points on a line; two queries against three points *)
Definition ag_D : arr2 f64 :=
  Arr2 4 4 (fun i j => nofZ (Z.abs (nth i [0; 1; 3; 10]%Z 0%Z - nth j [0; 1; 3; 10]%Z 0%Z))).
Definition ag_Q : arr2 f64 := Arr2 2 3 (fun i j => nofZ (Z.abs (nth i [2; 7]%Z 0%Z - nth j [0; 1; 12]%Z 0%Z))).
Definition ag_Z : arr2 f64 := Arr2 2 3 (fun i j => nofZ (Z.abs (nth i [1; 7]%Z 0%Z - nth j [0; 1; 12]%Z 0%Z))).
Lemma ag_all (n : nat) (P : nat -> bool) : forallb P (seq 0 n) = true -> forall i, i < n -> P i = true.
Proof. intros H i Hi. rewrite forallb_forall in H. apply H, in_seq. lia. Qed.
Definition ag_ok (D : arr2 f64) : bool :=
  forallb (fun i => forallb (fun x => nisfin (at2 D i x) && ((x =? i) || nlt (at2 D i i) (at2 D i x)) &&
    forallb (fun y => (x =? i) || (y =? i) || (x =? y) || (nlt (at2 D i x) (at2 D i y) || nlt (at2 D i y) (at2 D i x)))
      (seq 0 (ncol D))) (seq 0 (ncol D))) (seq 0 (nrow D)).
Lemma ag_ok_spec D : nrow D = ncol D -> ag_ok D = true -> unambiguous D.
Proof.
  intros Sq H. constructor; [assumption|..].
  - intros i j Hi Hj. pose proof (ag_all _ _ (ag_all _ _ H i Hi) j Hj) as A. cbv beta in A.
    apply andb_prop in A as (A & _). apply andb_prop in A as (A & _). exact A.
  - intros i j Hi Hj Hne. pose proof (ag_all _ _ (ag_all _ _ H i Hi) j Hj) as A. cbv beta in A.
    apply andb_prop in A as (A & _). apply andb_prop in A as (_ & A). apply Nat.eqb_neq in Hne. rewrite Hne in A. exact A.
  - intros i x y Hi Hx Hy Hxi Hyi Hne. pose proof (ag_all _ _ (ag_all _ _ H i Hi) x Hx) as A. cbv beta in A.
    apply andb_prop in A as (_ & A). pose proof (ag_all _ _ A y Hy) as B. cbv beta in B.
    apply Nat.eqb_neq in Hxi, Hyi, Hne. rewrite Hxi, Hyi, Hne in B. cbn [orb] in B. apply orb_prop in B. exact B.
Qed.
Definition aq_ok (D : arr2 f64) : bool :=
  forallb (fun i => forallb (fun x => nisfin (at2 D i x) && negb (neq (at2 D i x) n0) &&
    forallb (fun y => (x =? y) || (nlt (at2 D i x) (at2 D i y) || nlt (at2 D i y) (at2 D i x)))
      (seq 0 (ncol D))) (seq 0 (ncol D))) (seq 0 (nrow D)).
Lemma aq_ok_spec D : nrow D <> ncol D -> aq_ok D = true -> unambiguous_queries D.
Proof.
  intros Sq H. constructor; [assumption|..].
  - intros i j Hi Hj. pose proof (ag_all _ _ (ag_all _ _ H i Hi) j Hj) as A. cbv beta in A.
    apply andb_prop in A as (A & _). apply andb_prop in A as (A & _). exact A.
  - intros i j Hi Hj. pose proof (ag_all _ _ (ag_all _ _ H i Hi) j Hj) as A. cbv beta in A.
    apply andb_prop in A as (A & _). apply andb_prop in A as (_ & A). now apply negb_true_iff.
  - intros i x y Hi Hx Hy Hne. pose proof (ag_all _ _ (ag_all _ _ H i Hi) x Hx) as A. cbv beta in A.
    apply andb_prop in A as (_ & A). pose proof (ag_all _ _ A y Hy) as B. cbv beta in B.
    apply Nat.eqb_neq in Hne. rewrite Hne in B. cbn [orb] in B. apply orb_prop in B. exact B.
Qed.
Example C167_case :
  unambiguous ag_D /\ unambiguous_queries ag_Q /\
  (neq (at2 ag_Z 0 1) n0 && nlt n0 (at2 ag_Z 0 0) && nlt n0 (at2 ag_Z 0 2) = true) /\
  exists f, fit_transform (fun _ _ _ => n0) (fun _ => n0) (fun x _ => x) ref_argpart "precomputed" 2 (nofZ 2) 64 1 None true
    (InDense ag_D) None (Ok f) /\ f_nn f = [[1; 2]; [0; 2]; [1; 0]; [2; 1]] /\ f_occ f = [2; 3; 3; 0].
Proof.
  split; [apply ag_ok_spec; vm_compute; reflexivity|].
  split; [apply aq_ok_spec; [discriminate|vm_compute; reflexivity]|].
  split; [vm_compute; reflexivity|].
  pose proof (ft_pre_dense (fun _ _ _ => n0) (fun _ => n0) (fun x _ => x) ref_argpart "precomputed" 2 (nofZ 2 : f64) 64 1 None true ag_D eq_refl) as H.
  cbv zeta in H. set (r := bind _ _) in H.
  assert (C : match r with Ok f => (if list_eq_dec (list_eq_dec Nat.eq_dec) (f_nn f) [[1; 2]; [0; 2]; [1; 0]; [2; 1]] then true else false) &&
     (if list_eq_dec Nat.eq_dec (f_occ f) [2; 3; 3; 0] then true else false) | Raise _ => false end = true)
    by (vm_compute; reflexivity).
  destruct r as [f|]; [|discriminate]. exists f. split; [exact H|]. repeat destruct list_eq_dec; try discriminate C. auto.
Qed.

Print Assumptions C167_function_and_class.
Print Assumptions C167_large_k.
Print Assumptions C167_self_listed_first.
Print Assumptions C167_vectors.
Print Assumptions C167_queries.
Print Assumptions C167_zero_distance.
