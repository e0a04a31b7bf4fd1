(** C136: everything that is based on nearest neighbours depends only on how the
    objects rank each other, not on the values, the orientation (distance or
    similarity) or the names of the objects.  Double precision. *)
From Coq Require Import String.
From Coq Require Import ZArith Reals Lra List Arith Lia Bool Permutation Sorting.
From Flocq Require Import BinarySingleNaN.
From Verif Require Import Py Num Arr Sort S_Neighbors S_SNN S_KNN S_Relabel S_Order M_IO M_Hubness M_SNN M_KNN.
From Verif Require Import P_Neighbors P_F64 P_Hubness P_HubnessMain P_GK P_SNN P_KNN P_KNN2 P_KNN4 P_Relabel P_Relabel2 P_Order Properties_Hubness Properties_KNN Properties_Skew.
Import ListNotations.
Local Open Scope nat_scope.

(** ** C136 (1): hubness *)
Theorem C136_hubness :
  forall (argpart argpart' : list f64 -> list nat -> list nat), argpart_ok argpart -> argpart_ok argpart' ->
  forall metric metric' (D D' : arr2 f64) n p q, ranks_alike metric metric' D D' n p q ->
  forall sp sp' (k : nat) se se' rps rps' o o',
    (forall i, i < n -> Permutation (rps i) (seq 0 n)) -> (forall i, i < n -> Permutation (rps' i) (seq 0 n)) ->
    hubness_serial argpart sp D (Z.of_nat k) metric se rps = Ok o ->
    hubness_serial argpart' sp' D' (Z.of_nat k) metric' se' rps' = Ok o' ->
    (forall i, i < n -> nth i (out_Dk o') [] = map q (nth (p i) (out_Dk o) [])) /\
    (forall i, i < n -> nth i (out_Nk o') 0 = nth (p i) (out_Nk o) 0) /\
    hub_Sk o' = hub_Sk o.
Proof.
  intros argpart argpart' AP AP' metric metric' D D' n p q RA sp sp' k se se' rps rps' o o' R R' H H'.
  destruct (ra_dim _ _ _ _ _ _ _ RA) as (E1 & E2 & E3 & E4). pose proof (ra_renaming _ _ _ _ _ _ _ RA) as Hp.
  assert (U : forall m (A : arr2 f64) i x, nrow A = n -> ncol A = n -> i < n -> x < n -> (forall x, x < n -> x <> i -> nisfin (at2 A i x) = true) -> usable m A i x = negb (x =? i)).
  { intros m A i x Ra Ca Hi Hx F. unfold usable. rewrite Ra, Ca, Nat.eqb_refl. destruct (Nat.eqb_spec x i) as [->|Hn]; [now rewrite andb_false_r|]. now rewrite F. }
  assert (Cn : forall f i, i < n -> (forall x, x < n -> f x = negb (x =? i)) -> Nat.min k (n - 1) <= count_if f n).
  { intros f i Hi Hf. rewrite (count_if_ext f (fun x => negb (x =? i)) n Hf).
    unfold count_if. assert (G : length (filter (fun x => negb (x =? i)) (seq 0 n)) = n - 1); [|lia].
    pose proof (Permutation_length (NoDup_Permutation (seq_NoDup n 0) (l' := i :: filter (fun x => negb (x =? i)) (seq 0 n)) ltac:(constructor; [rewrite filter_In, Nat.eqb_refl; intros (_ & X); discriminate|apply NoDup_filter, seq_NoDup])
      ltac:(intros x; cbn [In]; rewrite filter_In, in_seq; destruct (Nat.eqb_spec x i) as [->|]; cbn; split; intros; [auto|lia|right; split; [lia|reflexivity]|destruct H0 as [->|(X & _)]; lia]))) as L.
    rewrite seq_length in L. cbn in L. lia. }
  assert (FD : forall i x, i < n -> x < n -> x <> i -> nisfin (at2 D i x) = true) by (intros; now apply (ra_finite _ _ _ _ _ _ _ RA)).
  assert (FD' : forall i x, i < n -> x < n -> x <> i -> nisfin (at2 D' i x) = true) by (intros; now apply (ra_finite _ _ _ _ _ _ _ RA)).
  assert (TD : forall i x y, i < n -> x < n -> y < n -> x <> y -> x <> i -> y <> i ->
    nearer metric (at2 D i x) (at2 D i y) = true \/ nearer metric (at2 D i y) (at2 D i x) = true).
  { intros i x y Hi Hx Hy Hxy Nx Ny. pose proof (rank_tot f64_cmp RA i x y Hi Hx Hy Hxy) as T. unfold rank_value in T.
    apply Nat.eqb_neq in Nx, Ny. now rewrite Nx, Ny in T. }
  (* the renamed matrix in between *)
  destruct (hubness_serial_inv argpart sp D _ metric se rps o H) as (V1 & K1 & _ & _).
  destruct (hubness_serial_inv argpart' sp' D' _ metric' se' rps' o' H') as (V2 & _ & _ & _).
  assert (M1 : 0 < n). { rewrite E2 in K1. destruct n; [pose proof (hub_k_0 (Z.of_nat k)); lia|lia]. }
  assert (Rs : exists o1, hubness_serial argpart sp (renamed p D) (Z.of_nat k) metric se rps = Ok o1).
  { destruct (serial_knn f64_cmp argpart AP sp (renamed p D) k metric se rps) as (o1 & X & _); [exact V1|cbn; lia|left; cbn; congruence|intros i Hi; cbn in *; rewrite E2; apply R; lia|]. now exists o1. }
  destruct Rs as (o1 & H1).
  assert (Eq : o1 = o').
  { apply (C06_result_determined_by_order argpart AP argpart' AP' sp sp' (renamed p D) D' k metric metric' se se' rps rps'); try exact H1; try exact H'; try (cbn; congruence); try (left; cbn; congruence).
    - intros i Hi. cbn in *. rewrite E2. apply R. lia.
    - intros i Hi. rewrite E4. apply R'. lia.
    - cbn [renamed nrow ncol]. rewrite E1, E2. intros i Hi.
      assert (FR : forall x, x < n -> x <> i -> nisfin (at2 (renamed p D) i x) = true).
      { intros x Hx Hn. cbn. apply FD; auto; [now apply Hp|now apply Hp|]. intros X. apply Hn. now apply (renaming_inj n p q). }
      assert (UR : forall x, x < n -> usable metric (renamed p D) i x = negb (x =? i)) by (intros; apply U; auto).
      assert (UD : forall x, x < n -> usable metric' D' i x = negb (x =? i)) by (intros; apply U; auto).
      split; [now apply (Cn _ i)|]. split; [intros x Hx; now rewrite UR, UD|]. split.
      + intros x y Hx Hy Ux Uy. rewrite UR in Ux, Uy by assumption. apply negb_true_iff, Nat.eqb_neq in Ux, Uy. symmetry. now apply (ra_order _ _ _ _ _ _ _ RA).
      + intros x y Hx Hy Hn Ux Uy. rewrite UR in Ux, Uy by assumption. apply negb_true_iff, Nat.eqb_neq in Ux, Uy. cbn [renamed at2].
        apply TD; try (now apply Hp); intros X; apply (renaming_inj n p q) in X; auto. }
  subst o1. destruct (C131_renaming_objects argpart AP argpart AP sp sp D k metric se se rps rps o o' p q) as (A & B & C); rewrite ?E1, ?E2; auto.
  intros i Hi. assert (UD : forall x, x < n -> usable metric D i x = negb (x =? i)) by (intros; apply U; auto). split; [now apply (Cn _ i)|].
  intros x y Hx Hy Hn Ux Uy. rewrite UD in Ux, Uy by assumption. apply negb_true_iff, Nat.eqb_neq in Ux, Uy. now apply TD.
  rewrite E1 in A, B. auto.
Qed.

(** ** C136 (2): shared nearest neighbours.  [common i j] is the number of shared neighbours. *)
Theorem C136_shared_neighbours :
  forall (argpart argpart' : list f64 -> list nat -> list nat), argpart_ok argpart -> argpart_ok argpart' ->
  forall metric metric' (D D' : arr2 f64) n p q, ranks_alike metric metric' D D' n p q ->
  valid_metric metric = true -> valid_metric metric' = true ->
  forall k, 0 < k < n -> (Z.of_nat k <= 2 ^ 53)%Z ->
    exists M M' (common : nat -> nat -> nat),
      snn_serial argpart D (Z.of_nat k) metric = Ok M /\ snn_serial argpart' D' (Z.of_nat k) metric' = Ok M' /\
      (metric = metric' -> forall i j, i < n -> j < n -> at2 M' i j = at2 M (p i) (p j)) /\
      forall i j, i < n -> j < n -> i <> j ->
        let share := ndiv (nofnat (common i j)) (nofnat k) in
        at2 M (p i) (p j) = (if is_sim metric then share else nsub n1 share) /\
        at2 M' i j = (if is_sim metric' then share else nsub n1 share).
Proof.
  intros argpart argpart' AP AP' metric metric' D D' n p q RA Hv Hv' k Hk Hb.
  destruct (ra_dim _ _ _ _ _ _ _ RA) as (E1 & E2 & E3 & E4). pose proof (ra_renaming _ _ _ _ _ _ _ RA) as Hp.
  destruct (snn_formula argpart AP metric D k Hv ltac:(congruence) (proj1 Hk) Hb ltac:(left; lia)) as (M & hood & HM & R & C & K & Dg & A).
  destruct (snn_formula argpart' AP' metric' D' k Hv' ltac:(congruence) (proj1 Hk) Hb ltac:(left; lia)) as (M' & hood' & HM' & R' & C' & K' & Dg' & A').
  rewrite E1 in K, Dg, A. rewrite E3 in K', Dg', A'.
  assert (S : forall i, i < n -> forall x, x < n -> In x (hood' i) <-> In (p x) (hood (p i))).
  { intros i Hi. apply (hood_alike f64_cmp RA k (hood (p i)) (hood' i) i Hi); [apply K; now apply Hp|now apply K']. }
  assert (O : forall i j, i < n -> j < n -> overlap (hood' i) (hood' j) = overlap (hood (p i)) (hood (p j))).
  { intros i j Hi Hj. apply (overlap_renamed n p q); auto; first [apply (K (p i)); now apply Hp|apply (K' i); assumption]. }
  assert (G : forall i j, i < n -> j < n -> i <> j ->
        at2 M (p i) (p j) = (if is_sim metric then ndiv (nofnat (overlap (hood' i) (hood' j))) (nofnat k) else nsub n1 (ndiv (nofnat (overlap (hood' i) (hood' j))) (nofnat k))) /\
        at2 M' i j = (if is_sim metric' then ndiv (nofnat (overlap (hood' i) (hood' j))) (nofnat k) else nsub n1 (ndiv (nofnat (overlap (hood' i) (hood' j))) (nofnat k)))).
  { intros i j Hi Hj Hn. split; [|exact (proj1 (A' i j Hi Hj Hn))]. rewrite O by assumption.
    apply (proj1 (A (p i) (p j) (proj1 (Hp i Hi)) (proj1 (Hp j Hj)) (p_ne RA i j Hi Hj Hn))). }
  exists M, M', (fun i j => overlap (hood' i) (hood' j)). split; [exact HM|]. split; [exact HM'|]. split; [|exact G].
  intros <- i j Hi Hj. destruct (Nat.eq_dec i j) as [<-|Hn].
  - rewrite Dg, Dg' by (try assumption; now apply Hp). reflexivity.
  - destruct (G i j Hi Hj Hn) as (-> & ->). reflexivity.
Qed.

(** ** C136 (3): leave-one-out k-NN evaluation *)
Lemma two_objects (i : nat) n : 2 <= n -> i < n -> exists x, x < n /\ x <> i.
Proof. intros Hn Hi. destruct (Nat.eq_dec i 0) as [->|H]; [exists 1; lia|exists 0; lia]. Qed.

Theorem C136_score :
  forall argsort argsort' : list f64 -> list nat, argsort_ok argsort -> argsort_ok argsort' ->
  forall rp rp', (forall i l, Permutation (rp i l) l) -> (forall i l, Permutation (rp' i l) l) ->
  forall sh sh', (forall (i j : nat) l, Permutation (sh i j l) l) -> (forall (i j : nat) l, Permutation (sh' i j l) l) ->
  forall metric metric' (D D' : arr2 f64) n p q, ranks_alike metric metric' D D' n p q ->
  valid_metric metric = true -> valid_metric metric' = true -> 2 <= n ->
  forall lab lab' ks cl, length lab = n -> length lab' = n -> (forall i, i < n -> nth i lab' 0%Z = nth (p i) lab 0%Z) ->
    (forall k, In k ks -> 0 < k) -> distinct_sorted lab cl ->
    exists out out',
      score argsort rp sh D lab (map Z.of_nat ks) metric None None = Ok out /\
      score argsort' rp' sh' D' lab' (map Z.of_nat ks) metric' None None = Ok out' /\
      length out = length ks /\ length out' = length ks /\
      forall j s s', nth_error out j = Some s -> nth_error out' j = Some s' ->
        k_acc s' = k_acc s /\
        (forall i, i < n -> k_corr s' i = k_corr s (p i)) /\
        (forall a b, a < length cl -> b < length cl -> k_cmat s' a b = k_cmat s a b).
Proof.
  intros argsort argsort' AS AS' rp rp' RP RP' sh sh' SH SH' metric metric' D D' n p q RA Hv Hv' Hn2 lab lab' ks cl L1 L2 Hlab Hks Hcl.
  destruct (ra_dim _ _ _ _ _ _ _ RA) as (E1 & E2 & E3 & E4). pose proof (ra_renaming _ _ _ _ _ _ _ RA) as Hp.
  assert (Hcl' : distinct_sorted lab' cl).
  { destruct Hcl as (S & I). split; [exact S|]. intros c. rewrite I. split; intros Hin.
    - destruct (In_nth _ _ 0%Z Hin) as (i & Hi & <-). rewrite L1 in Hi. destruct (Hp i Hi) as (_ & Q1 & _ & Q2). rewrite <- Q2, <- Hlab by exact Q1. apply nth_In. now rewrite L2.
    - destruct (In_nth _ _ 0%Z Hin) as (i & Hi & <-). rewrite L2 in Hi. rewrite Hlab by exact Hi. apply nth_In. rewrite L1. now apply Hp. }
  destruct (C23_majority argsort AS rp RP sh SH D lab ks metric cl ltac:(congruence) ltac:(congruence) Hv Hcl) as (out & pred & idx & Eo & Lo & De & Vo).
  destruct (C23_majority argsort' AS' rp' RP' sh' SH' D' lab' ks metric' cl ltac:(congruence) ltac:(congruence) Hv' Hcl') as (out' & pred' & idx' & Eo' & Lo' & De' & Vo').
  destruct (C20_leave_one_out argsort AS rp RP sh SH D lab (map Z.of_nat ks) metric cl ltac:(congruence) ltac:(congruence) Hv Hcl) as (o2 & Eo2 & _ & Co).
  destruct (C20_leave_one_out argsort' AS' rp' RP' sh' SH' D' lab' (map Z.of_nat ks) metric' cl ltac:(congruence) ltac:(congruence) Hv' Hcl') as (o2' & Eo2' & _ & Co').
  assert (o2 = out) as -> by (rewrite Eo in Eo2; now injection Eo2).
  assert (o2' = out') as -> by (rewrite Eo' in Eo2'; now injection Eo2').
  rewrite E1 in Vo, De, Co. rewrite E3 in Vo', De', Co'.
  exists out, out'. split; [exact Eo|]. split; [exact Eo'|]. split; [exact Lo|]. split; [exact Lo'|].
  intros j s s' Hs Hs'.
  assert (Hj : j < length ks) by (rewrite <- Lo; apply nth_error_Some; congruence).
  specialize (De j s Hs). specialize (De' j s' Hs').
  assert (HF : forall i, i < n -> has_finite_neighbor metric D i /\ has_finite_neighbor metric' D' i).
  { intros i Hi. destruct (two_objects i n Hn2 Hi) as (x & Hx & Hne). split; (split; [exists x; split; [lia|]; split; [exact Hne|]; now apply (ra_finite _ _ _ _ _ _ _ RA)|]);
      intros y Hy Hny; left; (apply (ra_finite _ _ _ _ _ _ _ RA); [exact Hi|lia|exact Hny]). }
  assert (PE : forall i, i < n -> pred' j i = pred j (p i)).
  { intros i Hi. pose proof (proj1 (Hp i Hi)) as Hpi.
    destruct (Vo (p i) Hpi) as (Rk & El & Ne). destruct (Vo' i Hi) as (Rk' & El' & Ne').
    destruct (ranking_alike f64_cmp RA (idx (p i)) (idx' i) i Hi Rk Rk') as (EI & HI).
    pose proof (El j Hj (fun j' Hj' => Ne (proj1 (HF (p i) Hpi)) Hks j' ltac:(lia))) as V1.
    pose proof (El' j Hj (fun j' Hj' => Ne' (proj2 (HF i Hi)) Hks j' ltac:(lia))) as V2.
    apply (elected_unique _ _ _ V2).
    replace (map _ _) with (map (fun x => nth x lab 0%Z) (filter (fun x => nisfin (rank_value metric D (p i) x)) (firstn (nth j ks 0) (idx (p i))))); [exact V1|].
    rewrite EI. rewrite firstn_map.
    assert (HI2 : forall x, In x (firstn (nth j ks 0) (idx' i)) -> x < n).
    { intros x Hx. apply HI. rewrite <- (firstn_skipn (nth j ks 0)). apply in_or_app. now left. }
    revert HI2. generalize (firstn (nth j ks 0) (idx' i)). clear V1 V2. induction l as [|x l IH]; intros Hl; [reflexivity|]. cbn [map filter].
    assert (EF : nisfin (rank_value metric D (p i) (p x)) = nisfin (rank_value metric' D' i x)).
    { assert (Hx : x < n) by (apply Hl; now left). unfold rank_value. rewrite (renaming_eqb n p q) by auto. destruct (Nat.eqb_spec x i) as [->|Hne].
      - now rewrite !(worst_nfin f64_cmp).
      - rewrite (proj2 (ra_finite _ _ _ _ _ _ _ RA i x Hi Hx Hne)). apply (ra_finite _ _ _ _ _ _ _ RA); [exact Hpi|now apply Hp|]. exact (p_ne RA x i Hx Hi Hne). }
    rewrite EF. destruct (nisfin (rank_value metric' D' i x)); cbn [map].
    - rewrite Hlab by (apply Hl; now left). f_equal. apply IH. intros y Hy. apply Hl. now right.
    - apply IH. intros y Hy. apply Hl. now right. }
  assert (CE : forall i, i < n -> k_corr s' i = k_corr s (p i)).
  { intros i Hi. rewrite (de_corr _ _ _ _ _ _ De' i), (de_corr _ _ _ _ _ _ De (p i)).
    - now rewrite Hlab, PE.
    - apply in_seq. pose proof (proj1 (Hp i Hi)). lia.
    - apply in_seq. lia. }
  assert (CF : forall (f g : nat -> bool), (forall i, i < n -> f i = g (p i)) -> length (filter f (seq 0 n)) = length (filter g (seq 0 n))).
  { intros f g Hfg. change (count_if f n = count_if g n). rewrite <- (count_if_renamed g n p q Hp). now apply count_if_ext. }
  split; [|split; [exact CE|]].
  - rewrite (co_acc _ _ _ _ _ _ (Co s (nth_error_In _ _ Hs))), (co_acc _ _ _ _ _ _ (Co' s' (nth_error_In _ _ Hs'))).
    rewrite (CF (k_corr s') (k_corr s) CE). reflexivity.
  - intros a b Ha Hb. rewrite (de_cmat _ _ _ _ _ _ De' a b Ha Hb), (de_cmat _ _ _ _ _ _ De a b Ha Hb). apply CF.
    intros i Hi. now rewrite Hlab, PE.
Qed.

(** ** C136 (4): where this applies.  Distances and their negatives as similarities ... *)
Theorem C136_negated :
  forall (D : arr2 f64) n, nrow D = n -> ncol D = n ->
    (forall i x, i < n -> x < n -> x <> i -> nisfin (at2 D i x) = true) ->
    (forall i x y, i < n -> x < n -> y < n -> x <> y -> x <> i -> y <> i -> neq (at2 D i x) (at2 D i y) = false) ->
    ranks_alike "distance" "similarity" D (Arr2 n n (fun i x => nopp (at2 D i x))) n (fun i => i) (fun i => i).
Proof.
  intros D n R C F T.
  assert (Fo : forall v : f64, nisfin v = true -> nisfin (nopp v) = true) by (intros [| | |]; cbn; auto).
  constructor.
  - cbn. auto.
  - intros i Hi. auto.
  - intros i x Hi Hx Hn. cbn. split; [now apply F|]. apply Fo. now apply F.
  - exact T.
  - intros i x y Hi Hx Hy Nx Ny. cbn [at2]. unfold nearer. cbn [is_sim String.eqb Ascii.eqb Bool.eqb].
    rewrite !(cl_lt _ _ _ f64_cmp).
    assert (OP : forall v : f64, nisfin v = true -> exists r, f2x v = XFin r /\ f2x (nopp v) = XFin (- r)).
    { intros v Hv. destruct v as [s|s| |s m e b]; try discriminate; cbn.
      - exists 0%R. split; [reflexivity|]. f_equal. lra.
      - eexists. split; [reflexivity|]. f_equal. rewrite <- Flocq.Core.Float_prop.F2R_Zopp. f_equal. now destruct s. }
    destruct (OP _ (F i x Hi Hx Nx)) as (r & -> & ->). destruct (OP _ (F i y Hi Hy Ny)) as (r' & -> & ->). cbn.
    destruct (Rlt_dec (- r') (- r)), (Rlt_dec r r'); auto; lra.
Qed.
(** ... and any strictly increasing change of the values, e.g. of the unit. *)
Theorem C136_monotone :
  forall metric (D : arr2 f64) (g : f64 -> f64) n, nrow D = n -> ncol D = n ->
    (forall i x, i < n -> x < n -> x <> i -> nisfin (at2 D i x) = true /\ nisfin (g (at2 D i x)) = true) ->
    (forall i x y, i < n -> x < n -> y < n -> x <> y -> x <> i -> y <> i ->
       neq (at2 D i x) (at2 D i y) = false /\
       (nlt (at2 D i x) (at2 D i y) = true -> nlt (g (at2 D i x)) (g (at2 D i y)) = true)) ->
    ranks_alike metric metric D (Arr2 n n (fun i x => g (at2 D i x))) n (fun i => i) (fun i => i).
Proof.
  intros metric D g n R C F T.
  constructor; cbn [nrow ncol at2]; auto.
  - intros i Hi. auto.
  - intros. now apply T.
  - assert (G : forall i x y, i < n -> x < n -> y < n -> x <> i -> y <> i -> nlt (g (at2 D i x)) (g (at2 D i y)) = nlt (at2 D i x) (at2 D i y)).
    { intros i x y Hi Hx Hy Nx Ny. destruct (Nat.eq_dec x y) as [->|Hne].
      - rewrite !(cl_lt _ _ _ f64_cmp). destruct (F i y Hi Hy Ny) as (F1 & F2). rewrite !(cl_fin _ _ _ f64_cmp) in *.
        destruct (f2x (at2 D i y)), (f2x (g (at2 D i y))); try discriminate; cbn. destruct (Rlt_dec r r), (Rlt_dec r0 r0); auto; lra.
      - destruct (T i x y Hi Hx Hy Hne Nx Ny) as (T1 & T2). destruct (T i y x Hi Hy Hx (not_eq_sym Hne) Ny Nx) as (_ & T3).
        destruct (F i y Hi Hy Ny) as (F1 & F2). destruct (F i x Hi Hx Nx) as (F3 & F4). 
        rewrite !(cl_fin _ _ _ f64_cmp) in *. rewrite !(cl_lt _ _ _ f64_cmp) in *. rewrite !(cl_eq _ _ _ f64_cmp) in *.
        destruct (f2x (at2 D i x)) as [| |a|], (f2x (at2 D i y)) as [| |b|]; try discriminate.
        destruct (f2x (g (at2 D i x))) as [| |c|], (f2x (g (at2 D i y))) as [| |d|]; try discriminate. cbn in *.
        destruct (Req_EM_T a b); [discriminate|]. destruct (Rlt_dec a b), (Rlt_dec c d), (Rlt_dec b a), (Rlt_dec d c); auto; try lra; try (specialize (T2 eq_refl)); try (specialize (T3 eq_refl)); congruence. }
    intros i x y Hi Hx Hy Nx Ny. unfold nearer. destruct (is_sim metric); now apply G.
Qed.

(** ** Concrete case: three objects, rotated and negated. *)
Definition exD_neg : arr2 f64 := Arr2 3 3 (fun i x => nopp (at2 exD (ex_p i) (ex_p x))).
Example C136_case :
  ranks_alike "distance" "similarity" exD exD_neg 3 ex_p ex_q /\
  (match hubness_serial ref_argpart false exD 1 "distance" true ex_rps with
   | Ok o => (out_Dk o, out_Nk o) | Raise _ => ([], []) end = ([[2]; [2]; [1]], [0; 1; 2]) /\
   match hubness_serial ref_argpart false exD_neg 1 "similarity" true ex_rps with
   | Ok o => (out_Dk o, out_Nk o) | Raise _ => ([], []) end = ([[1]; [0]; [1]], [1; 2; 0])).
Proof.
  split; [|split; vm_compute; reflexivity]. constructor.
  - now vm_compute.
  - exact (proj1 C131_case).
  - intros [|[|[|i]]] [|[|[|x]]] Hi Hx Hn; try lia; split; vm_compute; reflexivity.
  - intros [|[|[|i]]] [|[|[|x]]] [|[|[|y]]] Hi Hx Hy; intros; try lia; vm_compute; reflexivity.
  - intros [|[|[|i]]] [|[|[|x]]] [|[|[|y]]] Hi Hx Hy; intros; try lia; vm_compute; reflexivity.
Qed.

Print Assumptions C136_hubness.
Print Assumptions C136_shared_neighbours.
Print Assumptions C136_score.
Print Assumptions C136_negated.
Print Assumptions C136_monotone.
