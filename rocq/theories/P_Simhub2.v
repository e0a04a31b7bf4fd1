(** Proofs about M_Simhub: exact values *)
From Coq Require Import String.
From Coq Require Import ZArith List Arith Lia Bool Reals Lra Permutation.
From Verif Require Import Py Num NumT Arr Sort Conc S_Neighbors S_SNN S_Simhub M_IO M_SNN M_GK M_Simhub.
From Verif Require Import P_Neighbors P_SNN P_Simhub P_GK2.
Import ListNotations.
Local Open Scope nat_scope.

Lemma nofnat_xr n : nofnat n = XFin (INR n).
Proof. unfold nofnat. cbn [nofZ Num_xr]. now rewrite <- INR_IZR_INZ. Qed.

Lemma xdiv_fin a b : b <> 0%R -> xdiv (XFin a) (XFin b) = XFin (a / b).
Proof. intros H. unfold xdiv. destruct (Req_EM_T b 0); [contradiction|reflexivity]. Qed.

Lemma xln_pos r : (0 < r)%R -> xln (XFin r) = XFin (ln r).
Proof.
  intros H. unfold xln. destruct (Rlt_dec r 0); [lra|]. destruct (Req_EM_T r 0); [lra|reflexivity].
Qed.

Lemma INR_pos n : 0 < n -> (0 < INR n)%R.
Proof. intros. now apply lt_0_INR. Qed.

Lemma shi_I_xr m k : 0 < m -> 0 < k -> shi_I xln m k = XFin (ln (INR m / INR k)).
Proof.
  intros Hm Hk. unfold shi_I. rewrite !nofnat_xr. cbn [ndiv Num_xr].
  apply INR_pos in Hm, Hk. rewrite xdiv_fin by lra. apply xln_pos.
  apply Rdiv_lt_0_compat; assumption.
Qed.

Lemma rsum_filter {A} (b : A -> bool) (w : A -> R) l :
  rsum (map (fun x => if b x then w x else 0%R) l) = rsum (map w (filter b l)).
Proof.
  induction l as [|a l IH]; [reflexivity|]. cbn [map filter].
  change (rsum (?u :: ?t)) with (u + rsum t)%R. rewrite IH. destruct (b a).
  - reflexivity.
  - lra.
Qed.

(** the columns that are neighbours of both *)
Lemma common_perm m (a b : list nat) : NoDup a -> (forall x, In x a -> x < m) ->
  Permutation (filter (fun x => existsb (Nat.eqb x) a && existsb (Nat.eqb x) b) (seq 0 m)) (common a b).
Proof.
  intros Ha Hr. apply NoDup_Permutation.
  - apply NoDup_filter, seq_NoDup.
  - now apply NoDup_filter.
  - intros x. unfold common. rewrite !filter_In, in_seq, andb_true_iff, !existsb_In.
    split; intros H; [tauto|]. split; [|tauto]. specialize (Hr x (proj1 H)). lia.
Qed.

Lemma rsum_common m a b (w : nat -> R) : NoDup a -> (forall x, In x a -> x < m) ->
  rsum (map (fun x => if existsb (Nat.eqb x) a && existsb (Nat.eqb x) b then w x else 0%R) (seq 0 m))
  = rsum (map w (common a b)).
Proof.
  intros Ha Hr. rewrite rsum_filter. apply rsum_perm, Permutation_map. now apply common_perm.
Qed.

Lemma shi_cell_xr (K : arr2 bool) m (I : nat -> xr) (w : nat -> R) i r a b :
  (forall x, at2 K i x = existsb (Nat.eqb x) a) -> (forall x, at2 K r x = existsb (Nat.eqb x) b) ->
  NoDup a -> (forall x, In x a -> x < m) -> (forall x, x < m -> I x = XFin (w x)) ->
  shi_cell xsum K m I i r = XFin (rsum (map w (common a b))).
Proof.
  intros Ei Er Ha Hr HI. unfold shi_cell.
  rewrite <- (rsum_common m) by assumption. rewrite <- xsum_fin, map_map. f_equal.
  apply map_ext_in. intros x Hx. apply in_seq in Hx. rewrite Ei, Er, HI by lia.
  destruct (existsb _ a && existsb _ b); unfold b2v; cbn; f_equal; lra.
Qed.

Lemma sh_cell_xr (K : arr2 bool) m (I g : nat -> xr) (w v : nat -> R) i r a b :
  (forall x, at2 K i x = existsb (Nat.eqb x) a) -> (forall x, at2 K r x = existsb (Nat.eqb x) b) ->
  NoDup a -> (forall x, In x a -> x < m) ->
  (forall x, x < m -> I x = XFin (w x)) -> (forall x, x < m -> g x = XFin (v x)) ->
  sh_cell xsum K m I g i r = XFin (rsum (map (fun x => (w x * v x)%R) (common a b))).
Proof.
  intros Ei Er Ha Hr HI Hg. unfold sh_cell.
  rewrite <- (rsum_common m) by assumption. rewrite <- xsum_fin, map_map. f_equal.
  apply map_ext_in. intros x Hx. apply in_seq in Hx. rewrite Ei, Er, HI, Hg by lia.
  destruct (existsb _ a && existsb _ b); unfold b2v; cbn; f_equal; lra.
Qed.

Lemma conv_xr rd (c v : R) : c <> 0%R ->
  conv rd (XFin c) (XFin v) = XFin (if rd then 1 - v / c else v / c)%R.
Proof.
  intros H. unfold conv. cbv zeta. cbn [ndiv Num_xr]. rewrite xdiv_fin by assumption.
  destruct rd; [|reflexivity]. unfold n1. cbn. f_equal. lra.
Qed.

Lemma ln_ge0 x : (1 <= x)%R -> (0 <= ln x)%R.
Proof. intros H. rewrite <- ln_1. destruct H as [H|H]; [left; apply ln_increasing; lra|subst; right; reflexivity]. Qed.
Lemma ln_mono x y : (0 < x)%R -> (x <= y)%R -> (ln x <= ln y)%R.
Proof. intros H [L|E]; [left; now apply ln_increasing|subst; right; reflexivity]. Qed.
Lemma ln_gt0 x : (1 < x)%R -> (0 < ln x)%R.
Proof. intros H. rewrite <- ln_1. apply ln_increasing; lra. Qed.

Lemma INR_ge2 m : 2 <= m -> (2 <= INR m)%R.
Proof. intros H. replace 2%R with (INR 2) by (cbn; lra). now apply le_INR. Qed.

(** counts *)
Lemma occurs_le hood m x : occurs hood m x <= m.
Proof. unfold occurs. apply count_if_le. Qed.
Lemma occurs_pos hood m x : x < m -> 0 < occurs hood m x.
Proof.
  intros H. unfold occurs. destruct (filter _ _) eqn:E; cbn; [|lia].
  exfalso. assert (HI : In x (filter (fun i => (i =? x) || existsb (Nat.eqb x) (hood i)) (seq 0 m))).
  { apply filter_In. split; [apply in_seq; lia|]. now rewrite Nat.eqb_refl. }
  rewrite E in HI. contradiction.
Qed.

Lemma inform_range m k : 0 < k -> k <= m ->
  (0 <= ln (INR m / INR k) <= ln (INR m))%R.
Proof.
  intros Hk Hm. assert (H1 : (1 <= INR k)%R) by (change 1%R with (INR 1); apply le_INR; lia).
  assert (H2 : (INR k <= INR m)%R) by now apply le_INR. split.
  - apply ln_ge0. apply Rmult_le_reg_r with (INR k); [lra|]. unfold Rdiv. rewrite Rmult_assoc, Rinv_l; lra.
  - apply ln_mono; [apply Rdiv_lt_0_compat; lra|].
    apply Rmult_le_reg_r with (INR k); [lra|]. unfold Rdiv. rewrite Rmult_assoc, Rinv_l by lra. nra.
Qed.

Lemma rsum_le_bound {A} (w : A -> R) c l : (forall x, In x l -> (w x <= c)%R) ->
  (rsum (map w l) <= INR (length l) * c)%R.
Proof.
  intros H. induction l as [|a l IH]; [cbn; lra|].
  cbn [map length]. change (rsum (?u :: ?t)) with (u + rsum t)%R. rewrite S_INR.
  specialize (IH (fun x Hx => H x (or_intror Hx))). specialize (H a (or_introl eq_refl)). lra.
Qed.

Lemma common_length a b : length (common a b) = overlap a b.
Proof. reflexivity. Qed.

Lemma common_in a b x : In x (common a b) <-> In x a /\ In x b.
Proof. unfold common. now rewrite filter_In, existsb_In. Qed.

Lemma hub_sim_comm hood Nf m s i j : NoDup (hood i) -> NoDup (hood j) ->
  hub_sim hood Nf m s i j = hub_sim hood Nf m s j i.
Proof.
  intros Hi Hj. unfold hub_sim. f_equal. apply rsum_perm, Permutation_map.
  apply NoDup_Permutation; [now apply NoDup_filter|now apply NoDup_filter|].
  intros x. rewrite !common_in. tauto.
Qed.

(** bounds of the similarity when all occurrence counts lie in [lo, m] *)
Lemma hub_sim_bounds hood Nf m s i j lo :
  2 <= m -> 0 < s -> length (hood i) = s -> 0 < lo ->
  (forall x, In x (common (hood i) (hood j)) -> lo <= Nf x <= m) ->
  let sim := hub_sim hood Nf m s i j in
  (0 <= sim)%R /\
  (sim <= INR (overlap (hood i) (hood j)) / INR s * (1 - ln (INR lo) / ln (INR m)))%R.
Proof.
  intros Hm Hs Hl Hlo HN. cbv zeta. unfold hub_sim.
  assert (Hlm : (0 < ln (INR m))%R) by (apply ln_gt0; pose proof (INR_ge2 m Hm); lra).
  assert (Hss : (0 < INR s)%R) by now apply INR_pos.
  assert (Hp : (0 < INR s * ln (INR m))%R) by nra.
  assert (Hmp : (0 < INR m)%R) by (apply INR_pos; lia).
  assert (Hlp : (0 < INR lo)%R) by now apply INR_pos.
  split.
  - apply Rmult_le_pos; [|left; now apply Rinv_0_lt_compat]. apply rsum_nonneg.
    intros v Hv. apply in_map_iff in Hv as (x & <- & Hx). apply inform_range; apply HN in Hx; lia.
  - pose proof (rsum_le_bound (fun x => ln (INR m / INR (Nf x))) (ln (INR m) - ln (INR lo))
      (common (hood i) (hood j))) as B.
    rewrite common_length in B.
    replace (INR (overlap (hood i) (hood j)) / INR s * (1 - ln (INR lo) / ln (INR m)))%R
      with (INR (overlap (hood i) (hood j)) * (ln (INR m) - ln (INR lo)) / (INR s * ln (INR m)))%R
      by (field; lra).
    apply Rmult_le_compat_r; [left; now apply Rinv_0_lt_compat|]. apply B.
    intros x Hx. apply HN in Hx as (H1 & H2). unfold Rdiv.
    assert (Hn : (0 < INR (Nf x))%R) by (apply INR_pos; lia).
    rewrite ln_mult by (assumption || now apply Rinv_0_lt_compat). rewrite ln_Rinv by assumption.
    assert (ln (INR lo) <= ln (INR (Nf x)))%R by (apply ln_mono; [assumption|now apply le_INR]). lra.
Qed.

Section X.
  Variable argsort : list xr -> list nat.
  Hypothesis AS : argsort_ok argsort.

  Lemma knn_hood_at (D : arr2 xr) train s i x : i < nrow D ->
    at2 (shi_knn argsort s (shi_dist D train)) i x
    = existsb (Nat.eqb x) (shi_hood argsort s (shi_dist D train) i).
  Proof.
    intros Hi. rewrite shi_knn_at, (proj1 (shi_dist_shape D train)).
    now replace (i <? nrow D) with true by (symmetry; apply Nat.ltb_lt; lia).
  Qed.

  Lemma shi_N_occurs (D : arr2 xr) train s m x : m <= nrow D ->
    shi_N (shi_knn argsort s (shi_dist D train)) m x
    = occurs (shi_hood argsort s (shi_dist D train)) m x.
  Proof.
    intros Hm. unfold shi_N, occurs. cbv zeta. cbn [nrow fill_diagonal].
    rewrite (proj1 (shi_knn_shape argsort s _)), (proj1 (shi_dist_shape D train)).
    rewrite Nat.min_l by assumption. apply count_if_ext. intros i Hi.
    cbn [at2 fill_diagonal]. destruct (i =? x); [reflexivity|]. apply knn_hood_at. lia.
  Qed.

  Definition ok_train (D : arr2 xr) (train : option (list nat)) : Prop :=
    match train with
    | None => nrow D = ncol D
    | Some t => length t = ncol D /\ (forall s, In s t -> s < nrow D)
    end.
  Definition ok_test (D : arr2 xr) (test : option (list nat)) : Prop :=
    match test with None => True | Some t => forall s, In s t -> s < nrow D end.

  Lemma ok_train_shape D train : ncol D <= nrow D -> ok_train D train ->
    shi_shape D train = Ok tt /\ shi_index (nrow D) train = Ok tt /\
    length (cols_of (ncol D) train) = ncol D /\
    (forall j, j < ncol D -> nth j (cols_of (ncol D) train) 0 < nrow D).
  Proof.
    intros Hn Ht. destruct train as [t|]; cbn [ok_train cols_of] in *.
    - destruct Ht as (Hl & Ht). split; [now apply shi_shape_ok|]. split; [now apply shi_index_ok|].
      split; [assumption|]. intros j Hj. apply Ht, nth_In. lia.
    - split; [now apply shi_shape_ok|]. split; [reflexivity|]. split; [apply seq_length|].
      intros j Hj. rewrite seq_nth by assumption. lia.
  Qed.

  (** the row behind column [j] in the branch taken *)
  Definition row_of (vect : bool) (cols : list nat) (j : nat) : nat := if vect then nth j cols 0 else j.

  Lemma shi_row_of vect train m j : j < m -> shi_row vect train j = row_of vect (cols_of m train) j.
  Proof.
    intros Hj. unfold shi_row, row_of. destruct vect; [|reflexivity].
    destruct train; cbn [cols_of]; [reflexivity|]. now rewrite seq_nth.
  Qed.

  Lemma simhubIN_xr (D : arr2 xr) train test s rd :
    ncol D <= nrow D -> ok_train D train -> ok_test D test ->
    2 <= ncol D -> 0 < s -> s <= ncol D ->
    let m := ncol D in
    let cols := cols_of m train in
    let hood := shi_hood argsort (Z.of_nat s) (shi_dist D train) in
    exists M,
      simhubIN_serial argsort xln xsum D train test (Z.of_nat s) rd = Ok M /\
      (forall i, shi_neighbours D cols s i (hood i)) /\
      nrow M = length (shi_rows (nrow D) test) /\ ncol M = m /\
      forall a j, a < nrow M -> j < m ->
        at2 M a j =
        let val i := let sim := hub_sim hood (occurs hood m) m s i (row_of (m <? 2000) cols j) in
                     XFin (if rd then 1 - sim else sim)%R in
        match test with
        | None => if a =? j then XFin (if rd then 0 else 1) else val a
        | Some t => val (nth a t 0)
        end.
  Proof.
    intros Hn Htr Hte Hm Hs Hsm m cols hood.
    destruct (ok_train_shape D train Hn Htr) as (E1 & E2 & Hl & Hc).
    assert (E3 : shi_index (nrow D) test = Ok tt) by (apply shi_index_ok; exact Hte).
    assert (HK : forall i, shi_neighbours D cols s i (hood i))
      by (intros; apply (shi_hood_kset xr_cmp); assumption).
    unfold simhubIN_serial, shi_checks. rewrite E1. cbn [bind]. rewrite E2. cbn [bind].
    rewrite E3. cbn [bind]. cbv zeta. fold m.
    set (knn := shi_knn argsort (Z.of_nat s) (shi_dist D train)).
    set (I := fun x => shi_I xln m (shi_N knn m x)).
    set (f := fun i j => shi_cell xsum knn m I i (shi_row (m <? 2000) train j)).
    destruct (shi_matrix f rd (shi_norm xln (Z.of_nat s) m) (nrow D) m test) as (R & C & A).
    cbv zeta in *. unfold f in R, C, A |- *.
    eexists. split; [reflexivity|]. split; [exact HK|]. split; [exact R|]. split; [exact C|].
    assert (EN : shi_norm xln (Z.of_nat s) m = XFin (INR s * ln (INR m))%R).
    { unfold shi_norm. change (nofZ (Z.of_nat s)) with (nofnat (V:=xr) s). rewrite !nofnat_xr.
      rewrite xln_pos by (apply INR_pos; unfold m; lia). reflexivity. }
    assert (Hnz : (INR s * ln (INR m) <> 0)%R).
    { assert (0 < ln (INR m))%R by (apply ln_gt0; pose proof (INR_ge2 m Hm); lra).
      assert (0 < INR s)%R by now apply INR_pos. nra. }
    assert (Ef : forall i j, i < nrow D -> j < m ->
      conv rd (shi_norm xln (Z.of_nat s) m) (shi_cell xsum knn m I i (shi_row (m <? 2000) train j))
      = XFin (let sim := hub_sim hood (occurs hood m) m s i (row_of (m <? 2000) cols j) in
              if rd then 1 - sim else sim)%R).
    { intros i j Hi Hj. rewrite (shi_row_of _ _ m) by assumption. fold cols.
      assert (Hr : row_of (m <? 2000) cols j < nrow D).
      { unfold row_of. destruct (m <? 2000); [now apply Hc|]. unfold m in Hj. lia. }
      rewrite EN.
      rewrite (shi_cell_xr knn m I (fun x => ln (INR m / INR (occurs hood m x))) i _ (hood i)
                 (hood (row_of (m <? 2000) cols j))).
      - rewrite conv_xr by assumption. reflexivity.
      - intros x. now apply knn_hood_at.
      - intros x. now apply knn_hood_at.
      - apply (HK i).
      - apply (HK i).
      - intros x Hx. unfold I, knn. rewrite shi_N_occurs by (unfold m; assumption).
        apply shi_I_xr; [unfold m; lia|]. now apply occurs_pos. }
    intros a j Ha Hj. rewrite A by assumption.
    destruct test as [t|]; cbn [shi_rows] in R.
    - rewrite Ef; [reflexivity| |assumption]. apply Hte, nth_In. rewrite <- R. exact Ha.
    - destruct (a =? j); [destruct rd; reflexivity|].
      rewrite Ef; [reflexivity| |assumption]. rewrite seq_length in R. rewrite <- R. exact Ha.
  Qed.

  (* ---------------- simhub ---------------- *)
  Lemma sh_occ_any (D : arr2 xr) train s m x : m <= nrow D ->
    sh_occ (shi_knn argsort s (shi_dist D train)) m x
    = occurs_any (shi_hood argsort s (shi_dist D train)) m x.
  Proof.
    intros Hm. unfold sh_occ, occurs_any. apply count_if_ext. intros i Hi. apply knn_hood_at. lia.
  Qed.

  Lemma sh_occ_class (D : arr2 xr) train s y m c x : m <= nrow D -> length y = m -> 2 <= m ->
    sh_occ_c (shi_knn argsort s (shi_dist D train)) y m c x
    = occurs_class (shi_hood argsort s (shi_dist D train)) y m c x.
  Proof.
    intros Hm Hl H2. unfold sh_occ_c, occurs_class, y_at. apply count_if_ext. intros i Hi.
    rewrite knn_hood_at by lia. replace (length y =? 1) with false; [reflexivity|].
    symmetry. apply Nat.eqb_neq. lia.
  Qed.

  (** occurrences split over the classes *)
  Lemma count_classes (p : nat -> bool) (lab : nat -> Z) m (cs : list Z) :
    NoDup cs -> (forall i, i < m -> In (lab i) cs) ->
    sum_nat (map (fun c => count_if (fun i => p i && (lab i =? c)%Z) m) cs) = count_if p m.
  Proof.
    intros Hnd. induction m as [|m IH]; intros Hin.
    - unfold count_if. cbn. now apply sum_nat_zero.
    - rewrite count_if_S, <- IH by (intros; apply Hin; lia).
      specialize (Hin m (Nat.lt_succ_diag_r m)). clear IH.
      rewrite (map_ext _ (fun c => count_if (fun i => p i && (lab i =? c)%Z) m
                + (if p m && (lab m =? c)%Z then 1 else 0))) by (intros; apply count_if_S).
      rewrite sum_nat_map_add. f_equal. destruct (p m); cbn [andb].
      + clear p. revert Hnd Hin. induction cs as [|c cs IH]; intros Hnd Hin; [contradiction|].
        cbn [map sum_nat]. inversion Hnd as [|? ? Hc Hnd']; subst. destruct (Z.eqb_spec (lab m) c) as [E|E].
        * rewrite sum_nat_zero; [reflexivity|]. intros c' Hc'. destruct (Z.eqb_spec (lab m) c'); [|reflexivity].
          congruence.
        * destruct Hin as [Hin|Hin]; [congruence|]. now rewrite IH.
      + now apply sum_nat_zero.
  Qed.

  Lemma sh_label_checks_ok knn y m : 2 <= m ->
    sh_label_checks knn (Some y) m =
      if (length y =? m) || (length y =? 1) then Ok tt
      else if length y =? 0
           then (if forallb (fun x => 0 =? sh_occ knn m x) (seq 0 m) then Ok tt else Raise AssertionError)
           else Raise ValueError.
  Proof.
    intros Hm. unfold sh_label_checks.
    destruct ((length y =? m) || (length y =? 1)) eqn:E; cbn [orb].
    - cbn [negb guard bind]. 
      replace (forallb _ _) with true; [reflexivity|]. symmetry. apply forallb_forall.
      intros x Hx. apply Nat.eqb_eq. unfold sh_occ_c, sh_occ.
      apply (count_classes (fun i => at2 knn i x) (y_at y)); [apply unique_NoDup|].
      intros i Hi. apply unique_In. unfold y_at. apply nth_In.
      apply orb_true_iff in E as [E|E]; apply Nat.eqb_eq in E;
        destruct (Nat.eqb_spec (length y) 1); lia.
    - destruct (length y =? 0) eqn:E0; [|reflexivity]. cbn [negb guard bind].
      apply Nat.eqb_eq in E0. destruct y; [|discriminate]. cbn.
      destruct (forallb _ _); reflexivity.
  Qed.

  Lemma unique_classes y : Permutation (unique_labels y) (classes y).
  Proof.
    apply NoDup_Permutation; [apply unique_NoDup|apply NoDup_nodup|].
    intros c. unfold classes. rewrite unique_In, nodup_In. tauto.
  Qed.

  Lemma class_share_pos hood y m c x : (0 < class_share hood y m c x)%R.
  Proof.
    unfold class_share. pose proof (pos_INR (occurs_class hood y m c x)).
    pose proof (pos_INR (occurs_any hood m x)). apply Rdiv_lt_0_compat; lra.
  Qed.

  Lemma sh_p_xr (D : arr2 xr) train s y m c x : m <= nrow D -> length y = m -> 2 <= m ->
    sh_p (shi_knn argsort s (shi_dist D train)) y m c x
    = XFin (class_share (shi_hood argsort s (shi_dist D train)) y m c x).
  Proof.
    intros Hm Hl H2. unfold sh_p. rewrite sh_occ_class, sh_occ_any by assumption.
    rewrite !nofnat_xr, plus_INR. unfold n1. cbn [nofZ nadd ndiv Num_xr xadd].
    change (INR 1) with 1%R. rewrite xdiv_fin; [reflexivity|].
    pose proof (pos_INR (occurs_any (shi_hood argsort s (shi_dist D train)) m x)). lra.
  Qed.

  Lemma sh_gain_xr (D : arr2 xr) train s y m x : m <= nrow D -> length y = m -> 2 <= m ->
    sh_gain xln xsum (shi_knn argsort s (shi_dist D train)) (Some y) m x
    = XFin (info_gain (shi_hood argsort s (shi_dist D train)) y m x).
  Proof.
    intros Hm Hl H2. set (hood := shi_hood argsort s (shi_dist D train)).
    cbn [sh_gain]. unfold sh_maxH, sh_HR, info_gain.
    rewrite (Permutation_length (unique_classes y)), nofnat_xr.
    assert (Hc : 0 < length (classes y)).
    { destruct y as [|c y]; [cbn in Hl; lia|]. assert (In c (classes (c :: y))) by (apply nodup_In; now left).
      destruct (classes (c :: y)); [contradiction|cbn; lia]. }
    rewrite xln_pos by now apply INR_pos.
    rewrite (map_ext _ (fun c => XFin (class_share hood y m c x * ln (class_share hood y m c x)))).
    2:{ intros c. rewrite sh_p_xr by assumption. fold hood.
        rewrite xln_pos by apply class_share_pos. reflexivity. }
    rewrite <- (map_map (fun c => (class_share hood y m c x * ln (class_share hood y m c x))%R) XFin).
    rewrite xsum_fin. cbn. f_equal. rewrite Ropp_involutive. f_equal.
    apply rsum_perm, Permutation_map, unique_classes.
  Qed.

  Definition ok_labels (y : option (list Z)) (m : nat) : Prop :=
    match y with None => True | Some l => length l = m end.

  (** the sum inside one cell *)
  Definition sh_sum (hood : nat -> list nat) (y : option (list Z)) (m i r : nat) : R :=
    let w x := ln (INR m / INR (occurs_any hood m x + 1)) in
    rsum (map (fun x => match y with None => w x | Some l => (w x * info_gain hood l m x)%R end)
              (common (hood i) (hood r))).
  Definition sh_scale (y : option (list Z)) (m s : nat) : R :=
    match y with None => (INR s * ln (INR m))%R
    | Some l => (INR s * ln (INR m) * ln (INR (length (classes l))))%R end.

  Lemma simhub_cells (D : arr2 xr) y train test s rd vu :
    ncol D <= nrow D -> ok_train D train -> ok_test D test -> ok_labels y (ncol D) ->
    0 < s -> s < ncol D ->
    let m := ncol D in
    let cols := cols_of m train in
    let hood := shi_hood argsort (Z.of_nat s) (shi_dist D train) in
    let vect := (0 <? vu)%Z || ((vu =? 0)%Z && (m <? 2000)) in
    exists M,
      simhub argsort xln xsum D y train test (Z.of_nat s) rd vu = Ok M /\
      (forall i, shi_neighbours D cols s i (hood i)) /\
      nrow M = length (shi_rows (nrow D) test) /\ ncol M = m /\
      forall a j, a < nrow M -> j < m ->
        at2 M a j =
        let val i := conv rd (XFin (sh_scale y m s)) (XFin (sh_sum hood y m i (row_of vect cols j))) in
        match test with
        | None => if a =? j then XFin (if rd then 0 else 1) else val a
        | Some t => val (nth a t 0)
        end.
  Proof.
    intros Hn Htr Hte Hy Hs Hsm m cols hood vect.
    destruct (ok_train_shape D train Hn Htr) as (E1 & E2 & Hl & Hc).
    assert (E3 : shi_index (nrow D) test = Ok tt) by (apply shi_index_ok; exact Hte).
    assert (HK : forall i, shi_neighbours D cols s i (hood i))
      by (intros; apply (shi_hood_kset xr_cmp); assumption || (unfold m in *; lia)).
    assert (Hm : 2 <= m) by (unfold m; lia).
    unfold simhub. rewrite E1. cbn [bind]. fold m.
    replace ((0 <? Z.of_nat s)%Z && (Z.of_nat s <? Z.of_nat m)%Z) with true.
    2:{ symmetry. apply andb_true_iff. split; apply Z.ltb_lt; unfold m; lia. }
    cbn [negb guard bind]. rewrite E2. cbn [bind]. cbv zeta.
    set (knn := shi_knn argsort (Z.of_nat s) (shi_dist D train)).
    assert (E4 : sh_label_checks knn y m = Ok tt).
    { destruct y as [l|]; [|reflexivity]. rewrite sh_label_checks_ok by assumption.
      cbn [ok_labels] in Hy. unfold m. rewrite Hy, Nat.eqb_refl. reflexivity. }
    rewrite E4. cbn [bind]. rewrite E3. cbn [bind]. fold vect.
    set (I := fun x => shi_I xln m (sh_occ knn m x + 1)).
    set (f := fun i j => sh_cell xsum knn m I (sh_gain xln xsum knn y m) i (shi_row vect train j)).
    destruct (shi_matrix f rd (sh_norm xln (Z.of_nat s) m y) (nrow D) m test) as (R & C & A).
    cbv zeta in *. unfold f in R, C, A |- *.
    eexists. split; [reflexivity|]. split; [exact HK|]. split; [exact R|]. split; [exact C|].
    assert (EN : sh_norm xln (Z.of_nat s) m y = XFin (sh_scale y m s)).
    { assert (E : nmul (nofZ (Z.of_nat s)) (xln (nofnat m)) = XFin (INR s * ln (INR m))%R).
      { change (nofZ (Z.of_nat s)) with (nofnat (V:=xr) s). rewrite !nofnat_xr.
        rewrite xln_pos by (apply INR_pos; lia). reflexivity. }
      destruct y as [l|]; unfold sh_norm, sh_scale; [|exact E]. rewrite E.
      unfold sh_maxH. rewrite (Permutation_length (unique_classes l)), nofnat_xr.
      rewrite xln_pos; [reflexivity|]. apply INR_pos. cbn [ok_labels] in Hy.
      destruct l as [|c l]; [cbn in Hy; unfold m in Hm; lia|].
      assert (In c (classes (c :: l))) by (apply nodup_In; now left).
      destruct (classes (c :: l)); [contradiction|cbn; lia]. }
    assert (Ef : forall i j, i < nrow D -> j < m ->
      sh_cell xsum knn m I (sh_gain xln xsum knn y m) i (shi_row vect train j)
      = XFin (sh_sum hood y m i (row_of vect cols j))).
    { intros i j Hi Hj. rewrite (shi_row_of _ _ m) by assumption. fold cols.
      assert (Hr : row_of vect cols j < nrow D).
      { unfold row_of. destruct vect; [now apply Hc|]. unfold m in Hj. lia. }
      rewrite (sh_cell_xr knn m I _ (fun x => ln (INR m / INR (occurs_any hood m x + 1)))
                 (fun x => match y with None => 1%R | Some l => info_gain hood l m x end) i _ (hood i)
                 (hood (row_of vect cols j))).
      - unfold sh_sum. cbv zeta. f_equal. apply rsum_ext. intros x Hx. destruct y; [reflexivity|lra].
      - intros x. now apply knn_hood_at.
      - intros x. now apply knn_hood_at.
      - apply (HK i).
      - apply (HK i).
      - intros x Hx. unfold I, knn. rewrite sh_occ_any by (unfold m; assumption).
        apply shi_I_xr; lia.
      - intros x Hx. destruct y as [l|]; [|reflexivity]. apply sh_gain_xr; assumption. }
    intros a j Ha Hj. rewrite A by assumption. rewrite EN.
    destruct test as [t|]; cbn [shi_rows] in R.
    - rewrite Ef; [reflexivity| |assumption]. apply Hte, nth_In. rewrite <- R. exact Ha.
    - destruct (a =? j); [destruct rd; reflexivity|].
      rewrite Ef; [reflexivity| |assumption]. rewrite seq_length in R. rewrite <- R. exact Ha.
  Qed.

  (** without own occurrences both ways of counting agree *)
  Lemma occurs_any_S hood m x : x < m -> ~ In x (hood x) ->
    occurs hood m x = occurs_any hood m x + 1.
  Proof.
    intros Hx Hn. change (count_if (fun i => (i =? x) || existsb (Nat.eqb x) (hood i)) m
      = count_if (fun i => existsb (Nat.eqb x) (hood i)) m + 1).
    pose proof (count_if_or_and (fun i => i =? x) (fun i => existsb (Nat.eqb x) (hood i)) m) as E.
    rewrite (count_if_eq1 m x Hx) in E.
    rewrite (count_if_ext (fun i => (i =? x) && existsb (Nat.eqb x) (hood i)) (fun _ => false)) in E.
    2:{ intros i Hi. destruct (Nat.eqb_spec i x); [|reflexivity]. subst. cbn. now apply existsb_nIn. }
    rewrite count_if_false in E. lia.
  Qed.

  Lemma no_self (D : arr2 xr) s i l : nrow D = ncol D -> s < ncol D -> i < nrow D ->
    (forall x, x < nrow D -> x <> i -> nisfin (at2 D i x) = true) ->
    shi_neighbours D (seq 0 (ncol D)) s i l -> ~ In i l.
  Proof.
    intros Hsq Hs Hi Hf [K1 K2 K3 K4].
    apply (kset_no_self xr_cmp "distance" D (nrow D) s i l); try assumption; [reflexivity|lia|].
    constructor; try assumption.
    - intros x Hx. rewrite Hsq. auto.
    - intros x y Hx Hnx Hy. rewrite Hsq in Hx. specialize (K4 x y Hx Hnx Hy).
      unfold rank_value_s in K4. rewrite !seq_nth in K4 by auto. exact K4.
  Qed.
End X.
