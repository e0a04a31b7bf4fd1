(** Lemmas about the printed report. *)
From Coq Require Import String.
From Coq Require Import ZArith List Arith Lia Bool Permutation Sorted Reals Lra.
From Flocq Require Import Core IEEE754.BinarySingleNaN.
From Verif Require Import Py Num Arr Sort Conc S_Neighbors M_IO M_Hubness M_SNN M_MPEmpiric M_LS M_Dist M_Centering M_GK M_KNN M_Analysis M_ID M_Report P_Analysis.
Import ListNotations.
Local Open Scope nat_scope.

(** sorted(dict.keys()) *)
Lemma zinsert_perm x l : Permutation (zinsert x l) (x :: l).
Proof.
  induction l as [|y l IH]; [reflexivity|]. cbn. destruct (x <=? y)%Z; [reflexivity|].
  rewrite IH. apply perm_swap.
Qed.
Lemma zsorted_perm l : Permutation (zsorted l) l.
Proof. induction l as [|x l IH]; [reflexivity|]. cbn. rewrite zinsert_perm. now constructor. Qed.
Lemma zinsert_lt x l : StronglySorted Z.lt l -> ~ In x l -> StronglySorted Z.lt (zinsert x l).
Proof.
  induction l as [|y l IH]; intros S NI; cbn; [repeat constructor|].
  apply StronglySorted_inv in S as (S & F). destruct (Z.leb_spec x y) as [H|H].
  - assert (x < y)%Z by (destruct (Z.eq_dec x y); [subst; exfalso; apply NI; now left|lia]).
    constructor; [now constructor|]. constructor; [assumption|].
    eapply Forall_impl; [|exact F]. cbn. lia.
  - constructor; [apply IH; auto; intros I; apply NI; now right|].
    rewrite (zinsert_perm x l). constructor; assumption.
Qed.
Lemma zsorted_lt l : NoDup l -> StronglySorted Z.lt (zsorted l).
Proof.
  induction 1 as [|x l NI ND IH]; [constructor|]. cbn. apply zinsert_lt; auto.
  intros I. apply NI. eapply Permutation_in; [apply zsorted_perm|exact I].
Qed.
Lemma zsorted_In k l : In k (zsorted l) <-> In k l.
Proof. split; apply Permutation_in; [apply zsorted_perm|symmetry; apply zsorted_perm]. Qed.

(** dicts *)
Lemma dset_keys {A} k (v : A) d : map fst (dset k v d) = if existsb (Z.eqb k) (map fst d) then map fst d else map fst d ++ [k].
Proof.
  induction d as [|(k0, v0) d IH]; [reflexivity|]. cbn. destruct (Z.eqb_spec k k0) as [->|H]; cbn; [reflexivity|].
  rewrite IH. now destruct (existsb _ _).
Qed.
Lemma dset_nodup {A} k (v : A) d : NoDup (map fst d) -> NoDup (map fst (dset k v d)).
Proof.
  intros ND. rewrite dset_keys. destruct (existsb (Z.eqb k) (map fst d)) eqn:E; [assumption|].
  apply (Permutation_NoDup (l := k :: map fst d)); [apply Permutation_cons_append|].
  constructor; [|assumption]. intros I.
  assert (existsb (Z.eqb k) (map fst d) = true) by (apply existsb_exists; exists k; split; [assumption|apply Z.eqb_refl]).
  congruence.
Qed.
Lemma dget_keys {A} k (d : list (Z * A)) : In k (map fst d) <-> exists v, dget k d = Some v.
Proof.
  induction d as [|(k0, v0) d IH]; cbn.
  - split; [intros []|intros (v & H); discriminate].
  - destruct (Z.eqb_spec k k0) as [->|H]; [split; eauto|]. rewrite <- IH. split; [intros [E|I]; [congruence|exact I]|auto].
Qed.
Lemma hub_loop_nodup {V} {N : Num V} argpart n (Q : arr2 V) metric ks d r : hub_loop argpart n Q metric ks d r ->
  NoDup (map fst d) -> forall d', r = Ok d' -> NoDup (map fst d').
Proof.
  induction 1; intros ND d' E; [now injection E as <-|discriminate|]. apply IHhub_loop; auto. now apply dset_nodup.
Qed.
Lemma knn_loop_nodup {V} {N : Num V} argsort (Q : arr2 V) metric y ks d r : knn_loop argsort Q metric y ks d r ->
  NoDup (map fst d) -> forall d', r = Ok d' -> NoDup (map fst d').
Proof.
  induction 1; intros ND d' E; [now injection E as <-|discriminate|]. apply IHknn_loop; auto. now apply dset_nodup.
Qed.

Lemma flat_map_some {A B} (f : A -> list B) (g : A -> list B) l : (forall a, In a l -> f a = g a) -> flat_map f l = flat_map g l.
Proof. induction l as [|a l IH]; intros H; [reflexivity|]. cbn. rewrite H, IH; auto; [intros; apply H; now right|now left]. Qed.
Lemma flat_map_single {A B} (f : A -> B) l : flat_map (fun a => [f a]) l = map f l.
Proof. induction l; cbn; congruence. Qed.

(** round() *)
Lemma div_half_even_spec m e : (0 <= m)%Z -> (0 < e)%Z ->
  let d := (2 ^ e)%Z in let z := div_half_even m e in
  (Z.abs (2 * (z * d - m)) <= d)%Z /\ ((Z.abs (2 * (z * d - m)) = d)%Z -> Z.even z = true).
Proof.
  intros Hm He d z. assert (Hd : (0 < d)%Z) by (apply Z.pow_pos_nonneg; lia).
  pose proof (Z.div_mod m d ltac:(lia)) as E. pose proof (Z.mod_pos_bound m d Hd) as B.
  subst z. unfold div_half_even. fold d. set (q := (m / d)%Z) in *. set (r := (m mod d)%Z) in *.
  destruct (Z.ltb_spec (2 * r) d).
  { split; [nia|]. intros A. exfalso. nia. }
  destruct (Z.ltb_spec d (2 * r)).
  { split; [nia|]. intros A. exfalso. nia. }
  destruct (Z.even q) eqn:Q; (split; [nia|]); intros _; [assumption|].
  rewrite Z.add_1_r, Z.even_succ, <- Z.negb_even, Q. reflexivity.
Qed.

Lemma py_round_fin (x : f64) : is_finite x = true -> exists z, py_round x = Ok z /\
  (Rabs (IZR z - B2R x) <= 1 / 2)%R /\ ((Rabs (IZR z - B2R x) = 1 / 2)%R -> Z.even z = true).
Proof.
  destruct x as [s| | |s m e He]; intros F; try discriminate.
  - exists 0%Z. split; [reflexivity|]. cbn [B2R]. rewrite Rminus_diag_eq, Rabs_R0 by reflexivity. split; [lra|]. intros; lra.
  - unfold py_round. eexists. split; [reflexivity|].
    set (z := if (0 <=? e)%Z then (Zpos m * 2 ^ e)%Z else div_half_even (Zpos m) (- e)).
    assert (A : (Rabs (IZR z - IZR (Zpos m) * bpow radix2 e) <= 1 / 2)%R /\
                ((Rabs (IZR z - IZR (Zpos m) * bpow radix2 e) = 1 / 2)%R -> Z.even z = true)).
    { subst z. destruct (Z.leb_spec 0 e) as [H|H].
      - rewrite mult_IZR, (IZR_Zpower radix2) by assumption. rewrite Rminus_diag_eq, Rabs_R0 by reflexivity.
        split; [lra|]. intros; lra.
      - destruct (div_half_even_spec (Zpos m) (- e) ltac:(lia) ltac:(lia)) as (D1 & D2).
        set (w := div_half_even (Zpos m) (- e)) in *. cbv zeta in D1, D2.
        set (d := (2 ^ - e)%Z) in *. assert (Hd : (0 < d)%Z) by (apply Z.pow_pos_nonneg; lia).
        assert (HD : (0 < IZR d)%R) by now apply IZR_lt.
        assert (B : bpow radix2 e = (/ IZR d)%R).
        { unfold d. rewrite (IZR_Zpower radix2) by lia. now rewrite bpow_opp, Rinv_inv. }
        rewrite B.
        assert (X : (Rabs (IZR w - IZR (Zpos m) * / IZR d) = IZR (Z.abs (2 * (w * d - Zpos m))) / (2 * IZR d))%R).
        { rewrite abs_IZR, mult_IZR, minus_IZR, mult_IZR.
          replace (IZR w - IZR (Zpos m) * / IZR d)%R with ((2 * (IZR w * IZR d - IZR (Zpos m))) / (2 * IZR d))%R by (field; lra).
          unfold Rdiv. rewrite Rabs_mult. f_equal. apply Rabs_pos_eq. apply Rlt_le, Rinv_0_lt_compat. lra. }
        rewrite X. split.
        + apply IZR_le in D1. apply (Rmult_le_reg_r (2 * IZR d)); [lra|]. unfold Rdiv. rewrite Rmult_assoc, Rinv_l by lra. lra.
        + intros E. apply D2. apply eq_IZR. apply (f_equal (fun t => (t * (2 * IZR d))%R)) in E.
          unfold Rdiv in E. rewrite Rmult_assoc, Rinv_l in E by lra. lra. }
    cbn [B2R]. unfold F2R. cbn [Fnum Fexp]. destruct s; cbn [cond_Zopp].
    + rewrite opp_IZR, Z.even_opp. replace (- IZR z - IZR (- Zpos m) * bpow radix2 e)%R with (- (IZR z - IZR (Zpos m) * bpow radix2 e))%R
        by (rewrite opp_IZR; ring). rewrite Rabs_Ropp. exact A.
    + exact A.
Qed.
Lemma py_round_nonfin (x : f64) : is_finite x = false -> py_round x = Raise (if is_nan x then ValueError else OverflowError).
Proof. destruct x; try discriminate; reflexivity. Qed.

(** headers *)
Lemma header_known name : known name = true -> In (name, header name) headers.
Proof.
  unfold known, sec_names. intros H. apply existsb_exists in H as (n & I & E). apply String.eqb_eq in E; subst n.
  cbn in I. decompose [or] I; subst; cbn; tauto.
Qed.
Lemma header_inj n1 n2 : known n1 = true -> known n2 = true -> header n1 = header n2 -> n1 = n2.
Proof.
  unfold known, sec_names. intros H1 H2.
  apply existsb_exists in H1 as (n & I & E). apply String.eqb_eq in E; subst n.
  apply existsb_exists in H2 as (n & J & E). apply String.eqb_eq in E; subst n.
  cbn in I, J. decompose [or] I; subst; decompose [or] J; subst; try reflexivity; try contradiction; intros E; vm_compute in E; discriminate.
Qed.

Section PR.
  Context {V : Type} {N : Num V}.
  Variables (vexp vln : V -> V) (vsum : list V -> V) (vpow : V -> V -> V).
  Variable argpart : list V -> list nat -> list nat.
  Variable part : list V -> list nat -> list V.
  Variables (argsort stable : list V -> list nat) (sort : list V -> list V).
  Variable cpu : nat.
  Variables (gaussi gammai : arr2 V -> string -> result (arr2 V)) (idim : arr2 V -> result V).
  Variable vround : V -> result Z.
  Let exp_run := exp_run vexp vln vsum vpow argpart part argsort stable sort cpu gaussi gammai.
  Let exps_run := exps_run vexp vln vsum vpow argpart part argsort stable sort cpu gaussi gammai.
  Let exps_print := exps_print vexp vln vsum vpow argpart part argsort stable sort cpu gaussi gammai vround.
  Implicit Types a : analysis (V:=V).

  Lemma exps_print_run a dim hks kks nr names xs ls o :
    (forall v, dim = Some v -> is_ok (vround v) = true) ->
    exps_print a dim hks kks nr names xs ls o -> exps_run a hks kks names xs o.
  Proof.
    intros Hd. induction 1 as [nr|nr name names e H|nr name names x ls e H R|nr name names x ls xs ls' o H R HP IH].
    - apply xr_nil.
    - now apply xr_raise.
    - exfalso. unfold report_one in R. destruct dim as [v|]; [|discriminate].
      pose proof (Hd v eq_refl) as Hv. destruct (vround v); discriminate.
    - now apply xr_step.
  Qed.
  Lemma exps_run_print a dim hks kks names xs o :
    (forall v, dim = Some v -> is_ok (vround v) = true) ->
    exps_run a hks kks names xs o -> forall nr, exists ls, exps_print a dim hks kks nr names xs ls o.
  Proof.
    intros Hd. induction 1 as [|name names e H|name names x xs o H HP IH]; intros nr.
    - exists []. apply xp_nil.
    - exists []. now apply xp_raise.
    - destruct (IH (nr + 1)) as (ls & Hl).
      destruct (report_one vround a dim x) as (l0, [e|]) eqn:R.
      + exfalso. unfold report_one in R. destruct dim as [v|]; [|discriminate].
        pose proof (Hd v eq_refl) as Hv. destruct (vround v); discriminate.
      + exists (headline nr ++ l0 ++ ls). now apply xp_step.
  Qed.
End PR.

(** NaN goes through the arithmetic *)
Lemma nan_add_l (x y : f64) : nisnan x = true -> nisnan (nadd x y) = true.
Proof. destruct x; try discriminate; destruct y; reflexivity. Qed.
Lemma nan_add_r (x y : f64) : nisnan y = true -> nisnan (nadd x y) = true.
Proof. destruct y; try discriminate; destruct x; reflexivity. Qed.
Lemma nan_sub_l (x y : f64) : nisnan x = true -> nisnan (nsub x y) = true.
Proof. destruct x; try discriminate; destruct y; reflexivity. Qed.
Lemma nan_mul_l (x y : f64) : nisnan x = true -> nisnan (nmul x y) = true.
Proof. destruct x; try discriminate; destruct y; reflexivity. Qed.
Lemma nan_mul_r (x y : f64) : nisnan y = true -> nisnan (nmul x y) = true.
Proof. destruct y; try discriminate; destruct x; reflexivity. Qed.
Lemma nan_div_l (x y : f64) : nisnan x = true -> nisnan (ndiv x y) = true.
Proof. destruct x; try discriminate; destruct y; reflexivity. Qed.
Lemma nan_div_r (x y : f64) : nisnan y = true -> nisnan (ndiv x y) = true.
Proof. destruct y; try discriminate; destruct x; reflexivity. Qed.
Lemma nan_le_l (x y : f64) : nisnan x = true -> nle x y = false.
Proof. destruct x; try discriminate; destruct y; reflexivity. Qed.

Section NaNEstimate.
  Variables (vsum : list f64 -> f64) (vln : f64 -> f64) (sort : list f64 -> list f64).
  Hypothesis SN : forall l, (exists v, In v l /\ nisnan v = true) -> nisnan (vsum l) = true.
  Hypothesis LN : forall v, nisnan v = true -> nisnan (vln v) = true.
  Hypothesis SO : sort_ok sort.

  Lemma nan_row X i f whole j : f < ncol X -> nisnan (at2 X i f) = true -> nisnan (id_dist vsum whole X i j) = true.
  Proof.
    intros Hf Hn. unfold id_dist. apply nan_sub_l, nan_add_l. unfold id_dot. apply SN.
    exists (nmul (at2 X i f) (at2 X i f)). split; [|now apply nan_mul_l].
    apply in_map_iff. exists f. split; [reflexivity|]. apply in_seq. lia.
  Qed.
  Lemma nan_knn X i f whole t : f < ncol X -> nisnan (at2 X i f) = true -> nisnan (id_knn vsum vln sort whole X i t) = true.
  Proof.
    intros Hf Hn. unfold id_knn. apply nan_mul_r, LN. unfold id_valid.
    set (l := map (id_dist vsum whole X i) (seq 0 (nrow X))). destruct (SO l) as (P & _).
    assert (A : nisnan (nth (t + 1) (sort l) nnan) = true).
    { destruct (lt_dec (t + 1) (length (sort l))) as [H|H]; [|rewrite nth_overflow by lia; reflexivity].
      assert (I : In (nth (t + 1) (sort l) nnan) l) by (eapply Permutation_in; [exact P|now apply nth_In]).
      subst l. apply in_map_iff in I as (j & <- & _). eapply nan_row; eassumption. }
    rewrite nan_le_l by exact A. exact A.
  Qed.
  Lemma nan_cumsum (L : nat -> f64) t : (forall t, nisnan (L t) = true) -> nisnan (cumsum L t) = true.
  Proof. intros H. destruct t; cbn [cumsum]; [apply H|]. apply nan_add_r, H. Qed.
  Lemma nan_dhat (L : nat -> f64) k : (forall t, nisnan (L t) = true) -> nisnan (dhat L k) = true.
  Proof. intros H. unfold dhat. apply nan_div_r, nan_sub_l, nan_cumsum, H. Qed.
  Lemma nan_estimate order X i f estimator mem (k1 k2 : Z) : Permutation order (seq 0 (nrow X)) ->
    i < nrow X -> f < ncol X -> nisnan (at2 X i f) = true -> (1 <= k1 <= k2)%Z -> (k2 < Z.of_nat (nrow X))%Z ->
    (estimator = "levina" \/ estimator = "mackay")%string ->
    exists v, intrinsic_dimension vsum vln sort order X k1 k2 estimator "vector" None mem = Ok v /\ nisnan v = true.
  Proof.
    intros PO Hi Hf Hn Hk Hk2 He. unfold intrinsic_dimension.
    assert (Hg : (String.eqb estimator "levina" || String.eqb estimator "mackay")%bool = true) by (destruct He; subst; reflexivity).
    rewrite Hg. cbn [negb guard bind].
    replace ((k1 <? 1)%Z || (k2 <? k1)%Z || (Z.of_nat (nrow X) <=? k2)%Z)%bool with false.
    2:{ symmetry. apply orb_false_intro; [apply orb_false_intro|]; [apply Z.ltb_ge|apply Z.ltb_ge|apply Z.leb_gt]; lia. }
    cbn [guard bind String.eqb Ascii.eqb Bool.eqb id_trafo].
    assert (I : In i order) by (eapply Permutation_in; [symmetry; exact PO|apply in_seq; lia]).
    destruct (In_nth order i 0 I) as (p & Hp & Ep).
    assert (LP : length order = nrow X) by (rewrite (Permutation_length PO); apply seq_length).
    set (whole := (Z.of_nat (nrow X) <=? mem)%Z).
    set (Y := id_rows order X). set (L := id_knn vsum vln sort whole Y).
    assert (HL : forall t, nisnan (L p t) = true).
    { intros t. apply (nan_knn Y p f); [exact Hf|]. unfold Y, id_rows. cbn [at2]. now rewrite Ep. }
    eexists. split; [reflexivity|].
    destruct He as [-> | ->]; cbn [String.eqb Ascii.eqb Bool.eqb].
    - unfold id_levina. apply nan_div_l, SN. exists (dhat (L p) (Z.to_nat k1)). split; [|now apply nan_dhat].
      apply in_flat_map. exists p. split; [apply in_seq; lia|].
      apply in_map_iff. exists (Z.to_nat k1). split; [reflexivity|]. apply in_seq. lia.
    - unfold id_mackay. apply nan_div_l, SN. eexists. split.
      + apply in_map_iff. exists (Z.to_nat k1). split; [reflexivity|]. apply in_seq. lia.
      + apply nan_div_r, nan_div_l, SN. exists (ndiv n1 (dhat (L p) (Z.to_nat k1))). split; [|now apply nan_div_r, nan_dhat].
        apply in_map_iff. exists p. split; [reflexivity|]. apply in_seq. lia.
  Qed.
End NaNEstimate.
