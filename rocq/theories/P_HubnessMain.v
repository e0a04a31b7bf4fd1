(** Proofs of C01-C06 from the lemmas of P_Hubness.v. *)
From Coq Require Import String.
From Coq Require Import ZArith List Arith Lia Bool Permutation Reals Lra.
From Verif Require Import Py Num Arr Sort Conc S_Neighbors P_Neighbors M_IO M_Hubness P_Hubness.
Import ListNotations.
Local Open Scope nat_scope.

Section Main.
  Context {V : Type} {N : Num V} {toX : V -> xr} (CL : CmpLaws V N toX).

  Lemma serial_conserved argpart (AP : argpart_ok argpart) sparse (D : arr2 V) (k : nat) metric se rps o :
    rps_wf D rps ->
    hubness_serial argpart sparse D (Z.of_nat k) metric se rps = Ok o ->
    length (out_Nk o) = ncol D /\
    sum_nat (out_Nk o) = nrow D * Nat.min k (ncol D - 1) /\
    (forall c, In c (out_Nk o) -> c <= nrow D) /\
    (forall x, x < ncol D -> nth x (out_Nk o) 0
       = length (filter (fun r => existsb (Nat.eqb x) r) (out_Dk o))).
  Proof.
    intros Hrp H.
    destruct (hubness_serial_rows argpart AP sparse D _ metric se rps o Hrp H) as (L & HR).
    destruct (hubness_serial_inv argpart sparse D _ metric se rps o H) as (_ & Hk & _ & ->).
    destruct (Nat.eq_dec (ncol D) 0) as [E0|E0].
    { rewrite E0 in Hk. pose proof (hub_k_0 (Z.of_nat k)). lia. }
    rewrite <- L. apply occurrence_conservation. intros r Hr.
    specialize (HR r Hr). rewrite hub_k_of_nat, Nat2Z.id in HR by lia. exact HR.
  Qed.

  Lemma parallel_conserved argpart (AP : argpart_ok argpart) sparse (D : arr2 V) (k : nat) metric se rps o :
    rps_wf D rps ->
    hubness_parallel argpart sparse D (Z.of_nat k) metric se rps false (Ok o) ->
    length (out_Nk o) = ncol D /\
    sum_nat (out_Nk o) = nrow D * Nat.min k (ncol D - 1) /\
    (forall c, In c (out_Nk o) -> c <= nrow D) /\
    (forall x, x < ncol D -> nth x (out_Nk o) 0
       = length (filter (fun r => existsb (Nat.eqb x) r) (out_Dk o))).
  Proof.
    intros Hrp H.
    apply (hubness_parallel_det CL argpart AP) in H; [|assumption].
    destruct (Nat.eq_dec (ncol D) 0) as [E0|E0].
    { exfalso. symmetry in H. unfold hubness_par_seq in H. rewrite E0 in H.
      apply bind_ok_inv in H as (? & _ & H). apply bind_ok_inv in H as (? & H & _).
      pose proof (hub_k_0 (Z.of_nat k)). unfold guard in H.
      destruct (Z.ltb_spec (hub_k (Z.of_nat k) 0) 0); [discriminate|lia]. }
    assert (Hv : valid_metric metric = true).
    { symmetry in H. unfold hubness_par_seq in H. apply bind_ok_inv in H as ([] & Hm & _).
      now apply check_metric_ok. }
    destruct (hubness_par_seq_knn CL argpart AP sparse D k metric se rps Hv Hrp)
      as (o' & E & L & EN & HR); [lia|].
    rewrite E in H. injection H as ->. rewrite EN, <- L.
    apply occurrence_conservation. intros r Hr.
    apply (In_nth _ _ []) in Hr as (i & Hi & <-). rewrite L in Hi.
    destruct (HR i Hi) as [K1 K2 K3 _ _]. auto.
  Qed.

  Lemma serial_knn argpart (AP : argpart_ok argpart) sparse (D : arr2 V) (k : nat) metric se rps :
    valid_metric metric = true -> 0 < ncol D ->
    nrow D = ncol D \/ metric = "distance"%string ->
    rps_wf D rps ->
    exists o, hubness_serial argpart sparse D (Z.of_nat k) metric se rps = Ok o /\
      length (out_Dk o) = nrow D /\
      out_Nk o = bincount (concat (out_Dk o)) (ncol D) /\
      forall i, i < nrow D ->
        knn_list (fun x y => nearer metric (eff metric D i x) (eff metric D i y))
                 (ncol D) (Nat.min k (ncol D - 1)) (nth i (out_Dk o) []).
  Proof.
    intros Hv Hm Hs Hrp. rewrite <- (par_seq_serial argpart) by assumption.
    now apply (hubness_par_seq_knn CL).
  Qed.

  Lemma parallel_knn argpart (AP : argpart_ok argpart) sparse (D : arr2 V) (k : nat) metric se rps r :
    valid_metric metric = true -> 0 < ncol D -> rps_wf D rps ->
    hubness_parallel argpart sparse D (Z.of_nat k) metric se rps false r ->
    exists o, r = Ok o /\
      length (out_Dk o) = nrow D /\
      out_Nk o = bincount (concat (out_Dk o)) (ncol D) /\
      forall i, i < nrow D ->
        knn_list (fun x y => nearer metric (eff metric D i x) (eff metric D i y))
                 (ncol D) (Nat.min k (ncol D - 1)) (nth i (out_Dk o) []).
  Proof.
    intros Hv Hm Hrp H. apply (hubness_parallel_det CL argpart AP) in H; [|assumption]. subst r.
    now apply (hubness_par_seq_knn CL).
  Qed.

  Lemma knn_no_self metric (D : arr2 V) i k nn :
    knn_list (fun x y => nearer metric (eff metric D i x) (eff metric D i y)) (ncol D) k nn ->
    (forall a b, a < b -> b < k ->
       usable metric D i (nth b nn 0) = true -> usable metric D i (nth a nn 0) = true) /\
    (k <= count_if (usable metric D i) (ncol D) ->
       forall y, In y nn -> usable metric D i y = true).
  Proof.
    intros H. split.
    - intros a b Hab Hb Hu. destruct (usable metric D i (nth a nn 0)) eqn:E; [reflexivity|].
      pose proof (knn_sorted _ _ _ _ H a b Hab Hb) as Hs. simpl in Hs.
      rewrite (usable_beats CL metric D i _ _ Hu E) in Hs. discriminate.
    - intros Hc. eapply knn_list_usable; eauto. intros x y _ _ Hx Hy. simpl.
      now apply (usable_beats CL).
  Qed.

  Lemma serial_no_self argpart (AP : argpart_ok argpart) sparse (D : arr2 V) (k : nat) metric se rps o i :
    nrow D = ncol D -> rps_wf D rps -> i < nrow D ->
    hubness_serial argpart sparse D (Z.of_nat k) metric se rps = Ok o ->
    (Nat.min k (ncol D - 1) <= count_if (fun j => nisfin (at2 D i j) && negb (j =? i)) (ncol D) ->
       ~ In i (nth i (out_Dk o) []) /\
       forall j, In j (nth i (out_Dk o) []) -> nisfin (at2 D i j) = true) /\
    (forall j x, In j (nth i (out_Dk o) []) -> nisfin (at2 D i j) = false \/ j = i ->
       x < ncol D -> x <> i -> nisfin (at2 D i x) = true -> In x (nth i (out_Dk o) [])).
  Proof.
    intros Hsq Hrp Hi H.
    destruct (hubness_serial_inv argpart sparse D _ metric se rps o H) as (Hv & _ & _ & _).
    destruct (serial_knn argpart AP sparse D k metric se rps Hv) as (o' & E & _ & _ & HR); auto; [lia|].
    rewrite E in H. injection H as ->. specialize (HR i Hi).
    assert (Hus : forall j, usable metric D i j = nisfin (at2 D i j) && negb (j =? i)).
    { intros j. unfold usable. rewrite Hsq, Nat.eqb_refl. reflexivity. }
    split.
    - intros Hc. destruct (knn_no_self _ _ _ _ _ HR) as (_ & G).
      assert (Hc' : Nat.min k (ncol D - 1) <= count_if (usable metric D i) (ncol D)).
      { rewrite (count_if_ext _ (fun j => nisfin (at2 D i j) && negb (j =? i))); auto. }
      split.
      + intros Hin. specialize (G Hc' i Hin). rewrite Hus, Nat.eqb_refl, andb_false_r in G. discriminate.
      + intros j Hj. specialize (G Hc' j Hj). rewrite Hus in G. now apply andb_prop in G as (? & _).
    - intros j x Hj Hbad Hx Hxi Hfx.
      destruct (in_dec Nat.eq_dec x (nth i (out_Dk o) [])) as [Hin|Hout]; [assumption|].
      exfalso. pose proof (knn_best _ _ _ _ HR x j Hx Hout Hj) as Hb. simpl in Hb.
      rewrite (usable_beats CL) in Hb; [discriminate| |].
      + rewrite Hus, Hfx. apply Nat.eqb_neq in Hxi. now rewrite Hxi.
      + rewrite Hus. destruct Hbad as [F| ->]; [now rewrite F|]. now rewrite Nat.eqb_refl, andb_false_r.
  Qed.

  Lemma parallel_eq_serial argpart (AP : argpart_ok argpart) sparse (D : arr2 V) (k : Z) metric se rps :
    nrow D = ncol D \/ metric = "distance"%string -> rps_wf D rps ->
    (forall r, hubness_parallel argpart sparse D k metric se rps false r ->
               r = hubness_serial argpart sparse D k metric se rps) /\
    hubness_parallel argpart sparse D k metric se rps false
      (hubness_serial argpart sparse D k metric se rps).
  Proof.
    intros Hs Hrp.
    assert (G : forall r, hubness_parallel argpart sparse D k metric se rps false r ->
               r = hubness_serial argpart sparse D k metric se rps).
    { intros r Hr. rewrite <- (par_seq_serial argpart) by assumption.
      now apply (hubness_parallel_det CL argpart AP). }
    split; [exact G|].
    destruct (hubness_parallel_exists argpart sparse D k metric se rps false) as (r & Hr).
    pose proof (G r Hr) as E. now rewrite E in Hr.
  Qed.

  (** C05, exception part *)
  Lemma serial_sim_tall argpart sparse (D : arr2 V) (k : nat) se rps :
    ncol D < nrow D -> 2 <= ncol D -> 1 <= k -> rps_wf D rps ->
    hubness_serial argpart sparse D (Z.of_nat k) "similarity" se rps = Raise ValueError.
  Proof.
    intros Hn Hm Hk Hrp. unfold hubness_serial. simpl bind at 1.
    change (check_valid_metric_parameter "similarity") with (Ok tt). simpl.
    rewrite hub_k_of_nat by lia.
    replace (Z.of_nat (Nat.min k (ncol D - 1)) <? 0)%Z with false by (symmetry; apply Z.ltb_ge; lia).
    simpl.
    set (K := Nat.min k (ncol D - 1)).
    assert (HK : 1 <= K < ncol D) by (unfold K; lia).
    destruct (nrow D) as [|n'] eqn:En; [lia|].
    cbn [seq mapM]. 
    assert (Hill : kth_legal (ncol D)
              (hub_kth_ser "similarity" (S n') (ncol D) (Z.of_nat K)) = false).
    { destruct (kth_legal (ncol D) _) eqn:E; [|reflexivity].
      pose proof (proj1 (kth_legal_spec _ _) E) as Hl.
      specialize (Hl (Z.of_nat (S n') - 1)%Z).
      assert (In (Z.of_nat (S n') - 1)%Z (hub_kth_ser "similarity" (S n') (ncol D) (Z.of_nat K))).
      { unfold hub_kth_ser. simpl is_sim. cbv iota. apply In_zarange. lia. }
      specialize (Hl H). lia. }
    assert (Er : hub_row_nn argpart "similarity"
              (hub_kth_ser "similarity" (S n') (ncol D) (Z.of_nat K))
              (hub_shuffle se rps 0) (hub_row "similarity" (hub_prepare sparse "similarity" D) 0)
              = Raise ValueError).
    { pose proof (hub_row_length "similarity" (hub_prepare sparse "similarity" D) 0) as Lr.
      destruct (prepare_shape sparse "similarity" D) as (_ & Pc). rewrite Pc in Lr.
      unfold hub_row_nn, hub_shuffle. destruct se; unfold np_argpartition.
      - rewrite take_length, (perm_seq_length (rps 0) (ncol D)), Hill; [reflexivity|].
        apply Hrp. lia.
      - rewrite Lr, Hill. reflexivity. }
    unfold K in *. rewrite Er. reflexivity.
  Qed.

  (** C06 and order invariance / duality: if two runs see, row by row, the same
      strict order among usable candidates, they return the same. *)
  Lemma serial_order_unique
      argpart1 (AP1 : argpart_ok argpart1) argpart2 (AP2 : argpart_ok argpart2)
      sp1 sp2 (D1 D2 : arr2 V) (k : nat) metric1 metric2 se1 se2 rps1 rps2 o1 o2 :
    nrow D1 = ncol D1 \/ metric1 = "distance"%string ->
    nrow D2 = ncol D2 \/ metric2 = "distance"%string ->
    nrow D1 = nrow D2 -> ncol D1 = ncol D2 ->
    rps_wf D1 rps1 -> rps_wf D2 rps2 ->
    (forall i, i < nrow D1 ->
       Nat.min k (ncol D1 - 1) <= count_if (usable metric1 D1 i) (ncol D1) /\
       (forall x, x < ncol D1 -> usable metric1 D1 i x = usable metric2 D2 i x) /\
       (forall x y, x < ncol D1 -> y < ncol D1 ->
          usable metric1 D1 i x = true -> usable metric1 D1 i y = true ->
          nearer metric1 (at2 D1 i x) (at2 D1 i y) = nearer metric2 (at2 D2 i x) (at2 D2 i y)) /\
       (forall x y, x < ncol D1 -> y < ncol D1 -> x <> y ->
          usable metric1 D1 i x = true -> usable metric1 D1 i y = true ->
          nearer metric1 (at2 D1 i x) (at2 D1 i y) = true \/
          nearer metric1 (at2 D1 i y) (at2 D1 i x) = true)) ->
    hubness_serial argpart1 sp1 D1 (Z.of_nat k) metric1 se1 rps1 = Ok o1 ->
    hubness_serial argpart2 sp2 D2 (Z.of_nat k) metric2 se2 rps2 = Ok o2 ->
    o1 = o2.
  Proof.
    intros S1 S2 En Em R1 R2 Hord H1 H2.
    destruct (hubness_serial_inv argpart1 sp1 D1 _ metric1 se1 rps1 o1 H1) as (V1 & K1 & _ & _).
    destruct (hubness_serial_inv argpart2 sp2 D2 _ metric2 se2 rps2 o2 H2) as (V2 & K2 & _ & _).
    assert (M1 : 0 < ncol D1).
    { destruct (ncol D1); [pose proof (hub_k_0 (Z.of_nat k)); lia|lia]. }
    destruct (serial_knn argpart1 AP1 sp1 D1 k metric1 se1 rps1) as (o1' & E1 & L1 & N1 & G1); auto.
    destruct (serial_knn argpart2 AP2 sp2 D2 k metric2 se2 rps2) as (o2' & E2 & L2 & N2 & G2); auto.
    { lia. }
    rewrite E1 in H1. injection H1 as ->. rewrite E2 in H2. injection H2 as ->.
    assert (ED : out_Dk o1 = out_Dk o2).
    { apply (nth_ext _ _ [] []); [lia|]. intros i Hi. rewrite L1 in Hi.
      specialize (G1 i Hi). specialize (G2 i). rewrite <- En in G2. specialize (G2 Hi).
      destruct (Hord i Hi) as (Hc & Hu & Ho & Ht).
      rewrite <- Em in G2.
      eapply (knn_list_unique (fun x y => nearer metric1 (eff metric1 D1 i x) (eff metric1 D1 i y)))
        with (us := usable metric1 D1 i); [exact G1| | | | | |exact Hc].
      - eapply knn_list_ext; [|exact G2]. intros x y Hx Hy. simpl. unfold eff.
        rewrite <- !Hu by assumption.
        destruct (usable metric1 D1 i x) eqn:Ux, (usable metric1 D1 i y) eqn:Uy.
        + now rewrite Ho.
        + pose proof (usable_beats CL metric1 D1 i x y Ux Uy) as B1.
          pose proof (usable_beats CL metric2 D2 i x y) as B2.
          rewrite <- !Hu in B2 by assumption. specialize (B2 Ux Uy).
          unfold eff in B1, B2. rewrite <- !Hu in B2 by assumption.
          rewrite Ux, Uy in B1, B2. congruence.
        + pose proof (usable_beats CL metric1 D1 i y x Uy Ux) as B1.
          pose proof (usable_beats CL metric2 D2 i y x) as B2.
          rewrite <- !Hu in B2 by assumption. specialize (B2 Uy Ux).
          unfold eff in B1, B2. rewrite <- !Hu in B2 by assumption.
          rewrite Ux, Uy in B1, B2.
          destruct (nearer metric2 (worst metric2) (at2 D2 i y)) eqn:F2.
          { pose proof (nearer_trans CL metric2 _ _ _ F2 B2). rewrite (nearer_irrefl CL) in H. discriminate. }
          destruct (nearer metric1 (worst metric1) (at2 D1 i y)) eqn:F1; [|reflexivity].
          pose proof (nearer_trans CL metric1 _ _ _ F1 B1). rewrite (nearer_irrefl CL) in H. discriminate.
        + now rewrite !(nearer_irrefl CL).
      - simpl. intros x y z _ _ _. apply (nearer_trans CL).
      - simpl. intros x _. apply (nearer_irrefl CL).
      - simpl. intros x y _ _. apply (usable_beats CL).
      - simpl. intros x y Hx Hy Hne Ux Uy. unfold eff. rewrite Ux, Uy. now apply Ht. }
    destruct o1, o2. simpl in *. subst. now rewrite Em.
  Qed.

  Lemma neq_lt_total (x y : V) : nisfin x = true -> nisfin y = true -> neq x y = false ->
    nlt x y = true \/ nlt y x = true.
  Proof.
    rewrite (cl_eq _ _ _ CL), !(cl_fin _ _ _ CL), !(cl_lt _ _ _ CL).
    destruct (toX x), (toX y); simpl; try discriminate.
    intros _ _. destruct (Req_EM_T r r0); [discriminate|]. intros _.
    destruct (Rlt_dec r r0); [now left|]. right.
    destruct (Rlt_dec r0 r); [reflexivity|lra].
  Qed.

  Lemma serial_no_ties
      argpart1 (AP1 : argpart_ok argpart1) argpart2 (AP2 : argpart_ok argpart2)
      sp1 sp2 (D : arr2 V) (k : nat) metric se1 se2 rps1 rps2 :
    valid_metric metric = true -> 0 < nrow D -> nrow D = ncol D ->
    rps_wf D rps1 -> rps_wf D rps2 ->
    (forall i, i < nrow D ->
       Nat.min k (ncol D - 1) <= count_if (fun j => nisfin (at2 D i j) && negb (j =? i)) (ncol D)) ->
    (forall i x y, i < nrow D -> x < ncol D -> y < ncol D -> x <> y -> x <> i -> y <> i ->
       nisfin (at2 D i x) = true -> nisfin (at2 D i y) = true ->
       neq (at2 D i x) (at2 D i y) = false) ->
    hubness_serial argpart1 sp1 D (Z.of_nat k) metric se1 rps1
    = hubness_serial argpart2 sp2 D (Z.of_nat k) metric se2 rps2.
  Proof.
    intros Hv Hn Hsq R1 R2 Hc Ht.
    destruct (serial_knn argpart1 AP1 sp1 D k metric se1 rps1) as (o1 & E1 & _); auto; [lia|].
    destruct (serial_knn argpart2 AP2 sp2 D k metric se2 rps2) as (o2 & E2 & _); auto; [lia|].
    assert (Hus : forall i j, usable metric D i j = nisfin (at2 D i j) && negb (j =? i)).
    { intros i j. unfold usable. rewrite Hsq, Nat.eqb_refl. reflexivity. }
    rewrite E1, E2. f_equal.
    eapply (serial_order_unique argpart1 AP1 argpart2 AP2 sp1 sp2 D D k metric metric
              se1 se2 rps1 rps2); eauto.
    intros i Hi. split; [|split; [|split]]; auto.
    - rewrite (count_if_ext _ (fun j => nisfin (at2 D i j) && negb (j =? i))); auto.
    - intros x y Hx Hy Hne Ux Uy. rewrite Hus in Ux, Uy.
      apply andb_prop in Ux as (Fx & Ix). apply andb_prop in Uy as (Fy & Iy).
      apply negb_true_iff, Nat.eqb_neq in Ix. apply negb_true_iff, Nat.eqb_neq in Iy.
      pose proof (Ht i x y Hi Hx Hy Hne Ix Iy Fx Fy) as E.
      destruct (neq_lt_total _ _ Fx Fy E); unfold nearer; destruct (is_sim metric); auto.
  Qed.
End Main.
