(** Proofs about the Goodman-Kruskal models: from classes to quadruples, and
    the float64 counters. *)
From Coq Require Import String.
From Coq Require Import ZArith List Arith Lia Bool Permutation Sorting Reals Lra.
From Flocq Require Import Core.Core IEEE754.BinarySingleNaN.
From Verif Require Import Py Num Arr Sort S_Neighbors S_GK M_IO M_GK P_F64 P_GK.
Import ListNotations.
Local Open Scope nat_scope.

(** ** cells *)
Lemma triu_edges n m : triu_cells n m = filter (fun e => m (fst e) (snd e)) (edges n).
Proof.
  unfold triu_cells, edges. induction (seq 0 n) as [|i l IH]; simpl; [reflexivity|].
  rewrite filter_app, IH. f_equal.
  induction (seq (i + 1) (n - (i + 1))) as [|j l' IH']; simpl; [reflexivity|].
  destruct (m i j); simpl; now rewrite IH'.
Qed.

Lemma sum_seq_ind (f : nat -> nat) a k n : a + k <= n ->
  sum_nat (map f (seq a k)) = sum_nat (map (fun j => if (a <=? j) && (j <? a + k) then f j else 0) (seq 0 n)).
Proof.
  intros H. replace n with (a + (k + (n - (a + k)))) by lia.
  rewrite !seq_app, !map_app, !sum_nat_app. simpl.
  rewrite (sum_nat_zero _ (seq 0 a)).
  2:{ intros x Hx. apply in_seq in Hx. destruct (a <=? x) eqn:E; [apply Nat.leb_le in E; lia|reflexivity]. }
  rewrite (sum_nat_zero _ (seq (a + k) _)).
  2:{ intros x Hx. apply in_seq in Hx. destruct (x <? a + k) eqn:E; [apply Nat.ltb_lt in E; lia|].
      now rewrite andb_false_r. }
  rewrite Nat.add_0_r. simpl. apply sum_nat_ext. intros x Hx. apply in_seq in Hx.
  destruct (Nat.leb_spec a x); [|lia]. destruct (Nat.ltb_spec x (a + k)); [reflexivity|lia].
Qed.

(** the transposed mask visits the mirror images of the edges *)
Lemma triuT_sum (g : nat * nat -> nat) n m :
  sum_nat (map g (triuT_cells n m)) =
  sum_nat (map (fun e => g (snd e, fst e)) (triu_cells n m)).
Proof.
  unfold triuT_cells, triu_cells. rewrite !sum_nat_flat_map.
  transitivity (sum_nat (map (fun i => sum_nat (map (fun j =>
     if (i <? j) && (m i j) then g (j, i) else 0) (seq 0 n))) (seq 0 n))).
  - rewrite sum_nat_swap. apply sum_nat_ext. intros i Hi. apply in_seq in Hi.
    rewrite map_map, sum_nat_filter, (sum_seq_ind _ 0 i n) by lia.
    apply sum_nat_ext. intros j Hj. simpl. destruct (j <? i); reflexivity.
  - apply sum_nat_ext. intros i Hi. apply in_seq in Hi. symmetry.
    rewrite map_map, sum_nat_filter, (sum_seq_ind _ (i + 1) (n - (i + 1)) n) by lia.
    apply sum_nat_ext. intros j Hj. apply in_seq in Hj. simpl.
    destruct (Nat.ltb_spec i j), (Nat.leb_spec (i + 1) j), (Nat.ltb_spec j (i + 1 + (n - (i + 1))));
      simpl; try lia; reflexivity.
Qed.

(** ** class labels *)
Lemma uinsert_In x y l : In y (uinsert x l) <-> y = x \/ In y l.
Proof.
  induction l as [|z l IH]; simpl; [intuition congruence|].
  destruct (x <? z)%Z; [simpl; intuition congruence|].
  destruct (Z.eqb_spec x z) as [->|]; simpl; [intuition congruence|].
  rewrite IH. intuition congruence.
Qed.
Lemma unique_In y l : In y (unique_labels l) <-> In y l.
Proof.
  induction l as [|x l IH]; simpl; [reflexivity|]. rewrite uinsert_In, IH. intuition congruence.
Qed.
Lemma uinsert_sorted x l : StronglySorted Z.lt l -> StronglySorted Z.lt (uinsert x l).
Proof.
  induction l as [|z l IH]; simpl; intros H; [repeat constructor|].
  inversion H as [|? ? Hs Hf]; subst. rewrite Forall_forall in Hf.
  destruct (Z.ltb_spec x z).
  - constructor; [assumption|]. apply Forall_forall. intros y [<-|Hy]; [assumption|].
    specialize (Hf y Hy). lia.
  - destruct (Z.eqb_spec x z) as [->|]; [assumption|].
    constructor; [auto|]. apply Forall_forall. intros y Hy. apply uinsert_In in Hy.
    destruct Hy as [->|Hy]; [lia|auto].
Qed.
Lemma unique_sorted l : StronglySorted Z.lt (unique_labels l).
Proof. induction l; simpl; [constructor|]. now apply uinsert_sorted. Qed.
Lemma unique_NoDup l : NoDup (unique_labels l).
Proof.
  pose proof (unique_sorted l) as H. induction H as [|x l' Hs IH Hf]; constructor; auto.
  intros Hin. rewrite Forall_forall in Hf. specialize (Hf x Hin). lia.
Qed.

Lemma sum_indicator_Z (l : list Z) x v : NoDup l -> In x l ->
  sum_nat (map (fun c => if (x =? c)%Z then v else 0) l) = v.
Proof.
  induction l as [|y l IH]; intros Hn Hx; [contradiction|].
  inversion Hn as [|? ? Hy Hn']; subst. simpl. destruct Hx as [->|Hx].
  - rewrite Z.eqb_refl, sum_nat_zero; [lia|]. intros c Hc.
    destruct (Z.eqb_spec x c); [subst; contradiction|reflexivity].
  - destruct (Z.eqb_spec x y); [subst; contradiction|]. rewrite IH by assumption. lia.
Qed.

(** summing over classes = summing over the edges inside a class *)
Lemma class_sum (lab : list Z) (g : nat * nat -> nat) :
  sum_nat (map (fun c => sum_nat (map g (triu_cells (length lab)
      (fun i j => (nth i lab 0 =? c)%Z && (nth j lab 0 =? c)%Z)))) (unique_labels lab)) =
  sum_nat (map g (filter (within lab) (edges (length lab)))).
Proof.
  rewrite sum_nat_filter.
  rewrite (sum_nat_ext _ (fun c => sum_nat (map (fun e =>
     if (nth (fst e) lab 0 =? c)%Z && (nth (snd e) lab 0 =? c)%Z then g e else 0) (edges (length lab))))).
  2:{ intros c _. now rewrite triu_edges, sum_nat_filter. }
  rewrite sum_nat_swap. apply sum_nat_ext. intros (i, j) He. apply edges_spec in He. simpl.
  unfold within. simpl. destruct (Z.eqb_spec (nth i lab 0%Z) (nth j lab 0%Z)) as [E|E].
  - rewrite (sum_nat_ext _ (fun c => if (nth i lab 0 =? c)%Z then g (i, j) else 0)).
    + apply sum_indicator_Z; [apply unique_NoDup|]. apply unique_In. apply nth_In. lia.
    + intros c _. rewrite <- E. now destruct (nth i lab 0 =? c)%Z.
  - apply sum_nat_zero. intros c _. destruct (Z.eqb_spec (nth i lab 0%Z) c), (Z.eqb_spec (nth j lab 0%Z) c);
      simpl; congruence.
Qed.

(** a class with at most one member has no inner edge *)
Lemma count_if_two p n i j : i < j < n -> p i = true -> p j = true -> 1 < count_if p n.
Proof.
  intros H Pi Pj. pose proof (count_if_excl2 (fun x => negb (p x)) n i j) as E.
  cbv beta in E. rewrite Pi, Pj in E. specialize (E ltac:(lia) ltac:(lia) ltac:(lia) eq_refl eq_refl).
  pose proof (count_if_neg p n). lia.
Qed.
Lemma small_class (sel : nat -> bool) n : (1 <? count_if sel n) = false ->
  triu_cells n (fun i j => sel i && sel j) = [].
Proof.
  intros H. apply Nat.ltb_ge in H. rewrite triu_edges.
  destruct (filter _ (edges n)) as [|(i, j) l] eqn:E; [reflexivity|exfalso].
  assert (Hin : In (i, j) ((i, j) :: l)) by (simpl; auto). rewrite <- E in Hin.
  apply filter_In in Hin. destruct Hin as (He & Hm). apply edges_spec in He. simpl in Hm.
  apply andb_true_iff in Hm. destruct Hm as (Hi & Hj).
  pose proof (count_if_two sel n i j He Hi Hj). lia.
Qed.

(** quadruples as a double sum *)
Lemma length_filter_prod {A B} (p : A * B -> bool) (la : list A) (lb : list B) :
  length (filter p (list_prod la lb)) = sum_nat (map (fun a => cnt (fun b => p (a, b)) lb) la).
Proof.
  induction la as [|a la IH]; [reflexivity|]. simpl. rewrite filter_app, app_length, IH. f_equal.
  fold (cnt p (map (fun y => (a, y)) lb)). now rewrite cnt_map.
Qed.

Section Q.
  Context {V : Type} {N : Num V} {toX : V -> xr} (CL : CmpLaws V N toX).

  Definition inner (lab : list Z) : list (nat * nat) := filter (within lab) (edges (length lab)).
  Definition outer (lab : list Z) : list (nat * nat) :=
    filter (fun e => negb (within lab e)) (edges (length lab)).

  Lemma quad_sum lab (P : nat * nat -> nat * nat -> bool) :
    quadruples (length lab) lab P = sum_nat (map (fun e => cnt (P e) (outer lab)) (inner lab)).
  Proof.
    unfold quadruples. rewrite length_filter_prod. unfold inner. rewrite sum_nat_filter.
    apply sum_nat_ext. intros e _. simpl. destruct (within lab e) eqn:E.
    - unfold outer. rewrite cnt_filter. reflexivity.
    - apply cnt_zero. intros; reflexivity.
  Qed.

  Lemma outer_cells lab :
    triu_cells (length lab) (fun i j => negb (nth i lab 0 =? nth j lab 0)%Z) = outer lab.
  Proof. rewrite triu_edges. reflexivity. Qed.

  Definition class_cells (lab : list Z) (c : Z) : list (nat * nat) :=
    triu_cells (length lab) (fun i j => (nth i lab 0 =? c)%Z && (nth j lab 0 =? c)%Z).

  Lemma vals_cells_cnt (D : arr2 V) p cells :
    cnt p (vals D cells) = cnt (fun e => p (edge_val D e)) cells.
  Proof. unfold vals. now rewrite cnt_map. Qed.

  (** counts of one class *)
  Definition ccN (D : arr2 V) lab c : nat :=
    sum_nat (map (fun e => cnt (fun o => nlt (edge_val D o) (edge_val D e)) (outer lab)) (class_cells lab c)).
  Definition dcN (D : arr2 V) lab c : nat :=
    sum_nat (map (fun e => cnt (fun o => nlt (edge_val D e) (edge_val D o)) (outer lab)) (class_cells lab c)).

  Lemma ccN_total D lab : nrow D = length lab ->
    sum_nat (map (ccN D lab) (unique_labels lab)) = n_larger D lab.
  Proof.
    intros E. unfold n_larger. rewrite E, quad_sum. unfold ccN, class_cells. now rewrite class_sum.
  Qed.
  Lemma dcN_total D lab : nrow D = length lab ->
    sum_nat (map (dcN D lab) (unique_labels lab)) = n_smaller D lab.
  Proof.
    intros E. unfold n_smaller. rewrite E, quad_sum. unfold dcN, class_cells. now rewrite class_sum.
  Qed.

  Definition symm (D : arr2 V) : Prop :=
    forall i j, i < nrow D -> j < nrow D -> i <> j -> neq (at2 D i j) (at2 D j i) = true.

  Lemma triuT_In n m i j : In (i, j) (triuT_cells n m) -> j < i < n.
  Proof.
    unfold triuT_cells. rewrite in_flat_map. intros (a & Ha & H). apply in_map_iff in H.
    destruct H as (b & E & Hb). injection E as -> ->. apply filter_In in Hb.
    destruct Hb as (Hb & _). apply in_seq in Ha. apply in_seq in Hb. lia.
  Qed.

  Lemma npairs_cells (D : arr2 V) (p : V -> V -> bool) lab n m :
    symm D -> n = nrow D -> (forall x y z, neq x y = true -> p x z = p y z) ->
    npairs p (vals D (triuT_cells n m)) (vals D (outer lab)) =
    sum_nat (map (fun e => cnt (fun o => p (edge_val D e) (edge_val D o)) (outer lab)) (triu_cells n m)).
  Proof.
    intros HS Hn Hp. unfold npairs, vals at 2. rewrite map_map.
    rewrite (triuT_sum (fun e => cnt (p (at2 D (fst e) (snd e))) (vals D (outer lab)))).
    apply sum_nat_ext. intros (i, j) He. rewrite triu_edges in He. apply filter_In in He.
    destruct He as (He & _). apply edges_spec in He. simpl. rewrite vals_cells_cnt.
    apply cnt_ext. intros o _. apply Hp. apply HS; lia.
  Qed.

  Lemma symm_ok_T D n m : symm D -> n = nrow D -> Forall ok (vals D (triuT_cells n m)).
  Proof.
    intros HS ->. apply Forall_forall. intros v Hv. apply in_map_iff in Hv.
    destruct Hv as ((i, j) & <- & H). apply triuT_In in H. simpl.
    apply (neq_ok CL _ (at2 D j i)). apply HS; lia.
  Qed.
  Lemma symm_ok_outer D lab : symm D -> length lab = nrow D -> Forall ok (vals D (outer lab)).
  Proof.
    intros HS E. apply Forall_forall. intros v Hv. apply in_map_iff in Hv.
    destruct Hv as ((i, j) & <- & H). apply filter_In in H. destruct H as (H & _).
    rewrite E in H. apply edges_spec in H. simpl.
    apply (neq_ok CL _ (at2 D j i)). apply HS; lia.
  Qed.

  Lemma gk_class_spec argsort sort D lab Q c : stable_ok argsort -> sort_ok sort ->
    symm D -> length lab = nrow D ->
    gk_class argsort sort D lab Q c =
    if 1 <? count_if (fun i => (nth i lab 0 =? c)%Z) (length lab)
    then (nadd (fst Q) (nofZ (Z.of_nat (ccN D lab c))), nadd (snd Q) (nofZ (Z.of_nat (dcN D lab c))))
    else Q.
  Proof.
    intros HA HSo HS E. unfold gk_class. rewrite <- E. rewrite outer_cells.
    destruct (1 <? count_if _ _) eqn:Ec; [|reflexivity].
    set (l1 := vals D (triuT_cells (length lab) _)).
    assert (O1 : Forall ok l1) by (apply symm_ok_T; auto).
    assert (O2 : Forall ok (vals D (outer lab))) by (apply symm_ok_outer; auto).
    rewrite (scan_dense CL) by assumption. rewrite (equi_correct CL) by assumption.
    pose proof (npairs_tri CL l1 (vals D (outer lab)) O1 O2) as T.
    assert (E1 : npairs (fun s o => nlt o s) l1 (vals D (outer lab)) = ccN D lab c).
    { unfold l1. rewrite (npairs_cells D (fun s o => nlt o s)); [reflexivity|assumption|assumption|].
      intros. now apply (nlt_neq_r CL). }
    assert (E2 : npairs nlt l1 (vals D (outer lab)) = dcN D lab c).
    { unfold l1. rewrite (npairs_cells D nlt); [reflexivity|assumption|assumption|].
      intros. now apply (nlt_neq_l CL). }
    rewrite E1, E2 in T. rewrite E1. do 3 f_equal. lia.
  Qed.

  Lemma small_ccN D lab c :
    (1 <? count_if (fun i => (nth i lab 0 =? c)%Z) (length lab)) = false ->
    ccN D lab c = 0 /\ dcN D lab c = 0.
  Proof.
    intros H. unfold ccN, dcN, class_cells. rewrite (small_class _ _ H). auto.
  Qed.
End Q.

(** ** exact integers in float64 *)
Lemma f64_eq (x y : f64) : is_finite x = true -> is_finite y = true ->
  B2R x = B2R y -> Bsign x = Bsign y -> x = y.
Proof. intros. now apply B2R_Bsign_inj. Qed.

Lemma f64_ofZ_sign_gen z : (Z.abs z <= 2 ^ 53)%Z -> Bsign (f64_ofZ z) = (z <? 0)%Z.
Proof.
  intros Hz. destruct (f64_ofZ_exact z Hz) as (E & F). unfold f64_ofZ in *.
  pose proof (binary_normalize_correct 53 1024 prec53 emax1024 mode_NE z 0 false) as H.
  cbv zeta in H. destruct (Rlt_bool _ _).
  - destruct H as (_ & _ & H). rewrite H.
    replace (F2R (Float radix2 z 0)) with (IZR z) by (unfold F2R; simpl; ring).
    destruct (Rcompare_spec (IZR z) 0) as [L|L|L].
    + apply lt_IZR in L. symmetry. now apply Z.ltb_lt.
    + apply eq_IZR in L. subst z. reflexivity.
    + apply lt_IZR in L. symmetry. apply Z.ltb_ge. lia.
  - exfalso. rewrite <- is_finite_SF_B2SF in F. rewrite H in F. discriminate.
Qed.

Lemma Z_in_range z : (Z.abs z <= 2 ^ 53)%Z -> rnd (IZR z) = IZR z.
Proof.
  intros Hz. destruct (f64_ofZ_exact z Hz) as (E & F). rewrite <- E. apply rnd_gen.
  apply generic_format_B2R.
Qed.
Lemma Z_below z : (Z.abs z <= 2 ^ 53)%Z -> (Rabs (IZR z) < bpow radix2 1024)%R.
Proof.
  intros Hz. rewrite <- abs_IZR. apply Rle_lt_trans with (IZR (2 ^ 53)); [now apply IZR_le|].
  change (IZR (2 ^ 53)) with (IZR (Zpower radix2 53)). rewrite IZR_Zpower by lia. now apply bpow_lt.
Qed.

Lemma f64_add_Z a b : (0 <= a)%Z -> (0 <= b)%Z -> (a + b <= 2 ^ 53)%Z ->
  nadd (nofZ a) (nofZ b) = nofZ (V:=f64) (a + b).
Proof.
  intros Ha Hb Hab. change (Bplus mode_NE (f64_ofZ a) (f64_ofZ b) = f64_ofZ (a + b)).
  destruct (f64_ofZ_exact a) as (Ea & Fa); [lia|]. destruct (f64_ofZ_exact b) as (Eb & Fb); [lia|].
  destruct (f64_ofZ_exact (a + b)) as (Es & Fs); [lia|].
  pose proof (Bplus_correct 53 1024 prec53 emax1024 mode_NE _ _ Fa Fb) as H.
  fold (rnd (B2R (f64_ofZ a) + B2R (f64_ofZ b))) in H.
  rewrite Ea, Eb, <- plus_IZR, Z_in_range in H by lia.
  rewrite Rlt_bool_true in H by (apply Z_below; lia).
  destruct H as (H1 & H2 & H3). apply f64_eq; auto.
  - now rewrite H1, Es.
  - rewrite H3, f64_ofZ_sign_gen, f64_ofZ_sign_gen, f64_ofZ_sign_gen by lia.
    destruct (Rcompare_spec (IZR (a + b)) 0) as [L|L|L].
    + apply lt_IZR in L. lia.
    + apply eq_IZR in L. assert (a = 0 /\ b = 0)%Z as (-> & ->) by lia. reflexivity.
    + apply lt_IZR in L. symmetry. apply Z.ltb_ge. lia.
Qed.

Lemma f64_sub_Z a b : (0 <= a <= 2 ^ 53)%Z -> (0 <= b <= 2 ^ 53)%Z ->
  nsub (nofZ a) (nofZ b) = nofZ (V:=f64) (a - b).
Proof.
  intros Ha Hb. change (Bminus mode_NE (f64_ofZ a) (f64_ofZ b) = f64_ofZ (a - b)).
  destruct (f64_ofZ_exact a) as (Ea & Fa); [lia|]. destruct (f64_ofZ_exact b) as (Eb & Fb); [lia|].
  destruct (f64_ofZ_exact (a - b)) as (Es & Fs); [lia|].
  pose proof (Bminus_correct 53 1024 prec53 emax1024 mode_NE _ _ Fa Fb) as H.
  fold (rnd (B2R (f64_ofZ a) - B2R (f64_ofZ b))) in H.
  rewrite Ea, Eb, <- minus_IZR, Z_in_range in H by lia.
  rewrite Rlt_bool_true in H by (apply Z_below; lia).
  destruct H as (H1 & H2 & H3). apply f64_eq; auto.
  - now rewrite H1, Es.
  - rewrite H3, !f64_ofZ_sign_gen by lia.
    destruct (Rcompare_spec (IZR (a - b)) 0) as [L|L|L].
    + apply lt_IZR in L. symmetry. apply Z.ltb_lt. lia.
    + apply eq_IZR in L. destruct (Z.ltb_spec a 0), (Z.ltb_spec b 0), (Z.ltb_spec (a - b) 0);
        simpl; try lia; reflexivity.
    + apply lt_IZR in L. symmetry. apply Z.ltb_ge. lia.
Qed.

Lemma f64_neq_Z0 z : (Z.abs z <= 2 ^ 53)%Z -> neq (V:=f64) (nofZ z) n0 = (z =? 0)%Z.
Proof.
  intros Hz. rewrite (cl_eq _ _ _ f64_cmp), (cl_0 _ _ _ f64_cmp).
  change (nofZ z) with (f64_ofZ z). rewrite f2x_ofZ by assumption. simpl.
  destruct (Req_EM_T (IZR z) 0) as [E|E].
  - apply eq_IZR in E. subst. reflexivity.
  - symmetry. apply Z.eqb_neq. intros ->. now apply E.
Qed.

(** accumulating counts class by class is exact *)
Lemma fold_counts (step : f64 * f64 -> Z -> f64 * f64) (f g : Z -> nat) (big : Z -> bool) cls :
  (forall Q c, step Q c = if big c then (nadd (fst Q) (nofZ (Z.of_nat (f c))), nadd (snd Q) (nofZ (Z.of_nat (g c))))
                          else Q) ->
  (forall c, big c = false -> f c = 0 /\ g c = 0) ->
  forall a b, (Z.of_nat (a + b + sum_nat (map f cls) + sum_nat (map g cls)) <= 2 ^ 53)%Z ->
  fold_left step cls (nofZ (Z.of_nat a), nofZ (Z.of_nat b)) =
  (nofZ (Z.of_nat (a + sum_nat (map f cls))), nofZ (Z.of_nat (b + sum_nat (map g cls)))).
Proof.
  intros Hstep Hbig. induction cls as [|c cls IH]; intros a b Hb; simpl.
  - now rewrite !Nat.add_0_r.
  - simpl in Hb. rewrite Hstep. destruct (big c) eqn:E.
    + cbn [fst snd]. rewrite !f64_add_Z by lia. rewrite <- !Nat2Z.inj_add, IH by lia.
      rewrite !Nat.add_assoc. reflexivity.
    + destruct (Hbig c E) as (-> & ->). simpl. apply IH. lia.
Qed.

Lemma gamma_correct metric qc qd : valid_metric metric = true ->
  (Z.of_nat (qc + qd) <= 2 ^ 53)%Z ->
  gk_gamma metric (nofZ (V:=f64) (Z.of_nat qc), nofZ (Z.of_nat qd)) =
  if is_sim metric then gamma qc qd else gamma qd qc.
Proof.
  intros Hv Hb. unfold gk_gamma, gamma. rewrite f64_add_Z by lia.
  rewrite f64_neq_Z0 by lia. rewrite (Nat.add_comm qd qc).
  destruct (Nat.eqb_spec (qc + qd) 0) as [E|E].
  - rewrite (proj2 (Z.eqb_eq _ _)) by lia. now destruct (is_sim metric).
  - rewrite (proj2 (Z.eqb_neq _ _)) by lia. rewrite !f64_sub_Z by lia.
    rewrite Nat2Z.inj_add. now destruct (is_sim metric).
Qed.

(** ** the naive loops *)
Lemma fold_pair {A} (f g : A -> nat) (step : Z * Z -> A -> Z * Z) l :
  (forall st a, In a l -> step st a = (fst st + Z.of_nat (f a), snd st + Z.of_nat (g a))%Z) ->
  forall st, fold_left step l st =
    (fst st + Z.of_nat (sum_nat (map f l)), snd st + Z.of_nat (sum_nat (map g l)))%Z.
Proof.
  induction l as [|a l IH]; intros H st; simpl.
  - rewrite !Z.add_0_r. now destruct st.
  - rewrite H by (simpl; auto). rewrite IH by (intros; apply H; simpl; auto). simpl. f_equal; lia.
Qed.

Lemma edges_sum (g : nat * nat -> nat) n :
  sum_nat (map g (edges n)) =
  sum_nat (map (fun i => sum_nat (map (fun j => g (i, j)) (seq (i + 1) (n - (i + 1))))) (seq 0 n)).
Proof.
  unfold edges. rewrite sum_nat_flat_map. apply sum_nat_ext. intros i _. now rewrite map_map.
Qed.

Lemma naive_correct {V} {N : Num V} {toX} (CL : CmpLaws V N toX) (D : arr2 V) lab : length lab = nrow D ->
  naive_loops D lab = (Z.of_nat (n_smaller D lab), Z.of_nat (n_larger D lab)).
Proof.
  intros E. unfold naive_loops, for_.
  set (n := nrow D).
  assert (Hs : forall P, quadruples n lab P =
     sum_nat (map (fun i => sum_nat (map (fun j =>
        if (nth i lab 0 =? nth j lab 0)%Z then
          sum_nat (map (fun k => sum_nat (map (fun l =>
            if negb (nth l lab 0 =? nth k lab 0)%Z && P (i, j) (k, l) then 1 else 0)
             (seq (k + 1) (n - (k + 1))))) (seq 0 n)) else 0)
        (seq (i + 1) (n - (i + 1))))) (seq 0 n))).
  { intros P. unfold n. rewrite <- E, quad_sum. unfold inner. rewrite sum_nat_filter, edges_sum.
    apply sum_nat_ext. intros i _. apply sum_nat_ext. intros j _. unfold within at 1. simpl.
    destruct (nth i lab 0 =? nth j lab 0)%Z; [|reflexivity].
    unfold outer. rewrite cnt_filter, cnt_sum, edges_sum. apply sum_nat_ext. intros k _.
    apply sum_nat_ext. intros l _. unfold within. simpl. now rewrite (Z.eqb_sym (nth k lab 0%Z)). }
  unfold n_smaller, n_larger. fold n. rewrite !Hs.
  erewrite fold_pair; [rewrite !Z.add_0_l; reflexivity|].
  intros st i Hi. simpl. erewrite fold_pair; [reflexivity|].
  intros st' j Hj. simpl. destruct (nth i lab 0 =? nth j lab 0)%Z; [|now rewrite !Z.add_0_r; destruct st'].
  erewrite fold_pair; [reflexivity|].
  intros st'' k Hk. simpl. erewrite fold_pair; [reflexivity|].
  intros st3 l Hl. simpl. unfold edge_val. simpl.
  destruct (nth l lab 0 =? nth k lab 0)%Z; simpl; [now rewrite !Z.add_0_r; destruct st3|].
  destruct (nlt (at2 D i j) (at2 D k l)) eqn:E1.
  - destruct (nlt (at2 D k l) (at2 D i j)) eqn:E2.
    + exfalso. pose proof (nlt_trans CL _ _ _ E1 E2) as H. rewrite (nlt_irrefl CL) in H. discriminate.
    + simpl. now rewrite Z.add_0_r.
  - destruct (nlt (at2 D k l) (at2 D i j)); simpl; rewrite !Z.add_0_r; [reflexivity|now destruct st3].
Qed.

(** ** the fast index *)
Lemma gk_checks (D : arr2 f64) (lab : list Z) metric : nrow D = ncol D -> length lab = nrow D ->
  valid_metric metric = true ->
  check_distance_matrix_shape (Dense [nrow D; ncol D]) = Ok tt /\
  check_distance_matrix_shape_fits_labels (Dense [nrow D; ncol D]) (Dense [length lab]) = Ok tt /\
  check_valid_metric_parameter metric = Ok tt.
Proof.
  intros H1 H2 H3. repeat split.
  - unfold check_distance_matrix_shape, check_is_nD_array, dim0, dim1. simpl. now rewrite H1, Nat.eqb_refl.
  - unfold check_distance_matrix_shape_fits_labels, check_is_nD_array, dim0, size_of. simpl.
    now rewrite H2, Nat.mul_1_r, Nat.eqb_refl.
  - unfold check_valid_metric_parameter, valid_metric in *.
    destruct (is_dist metric), (is_sim metric); simpl in *; auto; discriminate.
Qed.

Lemma gk_index_spec argsort sort (D : arr2 f64) lab metric :
  stable_ok argsort -> sort_ok sort -> symm D -> nrow D = ncol D -> length lab = nrow D ->
  valid_metric metric = true -> (Z.of_nat (n_smaller D lab + n_larger D lab) <= 2 ^ 53)%Z ->
  goodman_kruskal_index argsort sort D lab metric =
  Ok (if is_sim metric then gamma (n_larger D lab) (n_smaller D lab)
      else gamma (n_smaller D lab) (n_larger D lab)).
Proof.
  intros HA HSo HS Hsq HL Hv Hb. unfold goodman_kruskal_index.
  destruct (gk_checks D lab metric Hsq HL Hv) as (C1 & C2 & C3). rewrite C1, C2, C3. cbn [bind].
  f_equal. rewrite <- (ccN_total D lab) in * by auto. rewrite <- (dcN_total D lab) in * by auto.
  change (n0, n0) with (nofZ (V:=f64) (Z.of_nat 0), nofZ (V:=f64) (Z.of_nat 0)).
  rewrite (fold_counts _ (ccN D lab) (dcN D lab)
      (fun c => 1 <? count_if (fun i => (nth i lab 0 =? c)%Z) (length lab))).
  - simpl Nat.add. rewrite gamma_correct by (assumption || lia). reflexivity.
  - intros Q c. now apply (gk_class_spec f64_cmp).
  - intros c Hc. now apply small_ccN.
  - lia.
Qed.

Lemma naive_index_spec (D : arr2 f64) lab metric :
  nrow D = ncol D -> length lab = nrow D -> valid_metric metric = true ->
  naive_goodman_kruskal D lab metric =
  Ok (if is_sim metric then gamma (n_larger D lab) (n_smaller D lab)
      else gamma (n_smaller D lab) (n_larger D lab)).
Proof.
  intros Hsq HL Hv. unfold naive_goodman_kruskal.
  destruct (gk_checks D lab metric Hsq HL Hv) as (C1 & C2 & C3). rewrite C1, C2, C3. cbn [bind].
  rewrite (naive_correct f64_cmp) by assumption. unfold gamma.
  rewrite (Nat.add_comm (n_larger D lab)), !Nat2Z.inj_add.
  destruct (Nat.eqb_spec (n_smaller D lab + n_larger D lab) 0) as [E|E].
  - rewrite (proj2 (Z.eqb_eq _ _)) by lia. now destruct (is_sim metric).
  - rewrite (proj2 (Z.eqb_neq _ _)) by lia. now destruct (is_sim metric).
Qed.
