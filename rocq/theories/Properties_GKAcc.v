(** Property C180: the Goodman-Kruskal index in float64 when the number of
    quadruples exceeds 2^53 (goodman_kruskal.py:19-137, 139-368). *)
From Coq Require Import String.
From Coq Require Import ZArith Reals Lra List Arith Lia Bool Permutation.
From Flocq Require Import Core BinarySingleNaN.
From Verif Require Import Py Num Arr Sort S_Neighbors S_GK M_IO M_GK.
From Verif Require Import P_F64 P_LSAcc P_NicdmAcc P_GK P_GK2 P_GK3 P_GKAcc Properties_GK.
Import ListNotations.
Local Open Scope nat_scope.

(** ** Specification: gamma as a real number, 0 if nothing is comparable *)
Definition real_gamma (qc qd : nat) : R :=
  if qc + qd =? 0 then 0%R else ((INR qc - INR qd) / (INR qc + INR qd))%R.
Definition class_count (lab : list Z) : nat := length (nodup Z.eq_dec lab).
(** all quadruples (edge inside a class, edge between classes); at least 2^63 of
    them would overflow numpy's int64 counters, which are unbounded in the model *)
Definition all_quadruples (n : nat) (lab : list Z) : nat := quadruples n lab (fun _ _ => true).
Definition gamma_close (lab : list Z) (g : R) (v : f64) : Prop :=
  nisfin v = true /\ nle (nofZ (-1)) v = true /\ nle v n1 = true /\
  (Rabs (B2R v - g) <= INR (class_count lab + 1) * bpow radix2 (-50))%R.

Lemma class_count_unique lab : length (unique_labels lab) = class_count lab.
Proof.
  apply Permutation_length. apply NoDup_Permutation; [apply unique_NoDup|apply NoDup_nodup|].
  intros x. rewrite unique_In, nodup_In. reflexivity.
Qed.
Lemma nodup_length {A} (dec : forall x y : A, {x = y} + {x <> y}) l : length (nodup dec l) <= length l.
Proof. induction l as [|x l IH]; cbn; [lia|]. destruct (in_dec dec x l); cbn; lia. Qed.

Lemma quadruples_two n lab P Q : (forall e o, P e o = true -> Q e o = false) -> quadruples n lab P + quadruples n lab Q <= all_quadruples n lab.
Proof.
  intros H. unfold all_quadruples, quadruples. induction (list_prod (edges n) (edges n)) as [|(e, o) l IH]; [cbn; lia|].
  cbn [filter fst snd]. destruct (within lab e && negb (within lab o)); cbn [andb]; [|exact IH].
  specialize (H e o). destruct (P e o); [rewrite (H eq_refl); cbn [length]; lia|]. destruct (Q e o); cbn [length]; lia.
Qed.

Lemma counts_bound (D : arr2 f64) lab : n_larger D lab + n_smaller D lab <= all_quadruples (nrow D) lab.
Proof.
  apply quadruples_two. intros e o H. destruct (nlt (edge_val D e) (edge_val D o)) eqn:E; [|reflexivity].
  pose proof (nlt_trans f64_cmp _ _ _ H E) as X. rewrite (nlt_irrefl f64_cmp) in X. discriminate.
Qed.

Lemma gamma_bound m (v : f64) (X Y A : R) : (A = 4 * (INR m * u53))%R ->
  is_finite v = true -> (Rabs (B2R v) <= 1)%R -> (Rabs (B2R v - (X - Y) / (X + Y)) <= 2 * A + 4 * u53)%R ->
  nisfin v = true /\ nle (nofZ (-1)) v = true /\ nle v n1 = true /\
  (Rabs (B2R v - (X - Y) / (X + Y)) <= INR (m + 1) * bpow radix2 (-50))%R.
Proof.
  intros -> F B E. apply Rabs_le_inv in B. split; [exact F|].
  assert (M1 : B2R (nofZ (-1) : f64) = (-1)%R /\ is_finite (nofZ (-1) : f64) = true) by (apply f64_ofZ_exact; lia).
  destruct n1_f64 as (O1 & O2). rewrite (nle_B2R _ _ (proj2 M1) F), (nle_B2R _ _ F O2), O1, (proj1 M1).
  split; [lra|]. split; [lra|]. apply Rle_trans with (1 := E). rewrite plus_INR. cbn [INR].
  assert (U : (bpow radix2 (-50) = 8 * u53)%R) by (unfold u53; change (-50)%Z with (3 + -53)%Z; rewrite bpow_plus; reflexivity).
  rewrite U. pose proof u53_pos. pose proof (pos_INR m). nra.
Qed.

(** the two counters determine a value close to gamma *)
Lemma index_close metric m (Qc Qd : f64) (c d : nat) : (Z.of_nat m <= 2 ^ 40)%Z -> (Z.of_nat (c + d) <= 2 ^ 63)%Z ->
  is_finite Qc = true -> is_finite Qd = true -> powers m (INR c) (B2R Qc) -> powers m (INR d) (B2R Qd) ->
  let v := gk_gamma metric (Qc, Qd) in let g := if is_sim metric then real_gamma c d else real_gamma d c in
  nisfin v = true /\ nle (nofZ (-1)) v = true /\ nle v n1 = true /\ (Rabs (B2R v - g) <= INR (m + 1) * bpow radix2 (-50))%R.
Proof.
  intros Hm Hb Fc Fd Pc Pd v g. pose proof (powers_near m _ _ Hm (pos_INR c) Pc) as Nc. pose proof (powers_near m _ _ Hm (pos_INR d) Pd) as Nd.
  set (A := (4 * (INR m * u53))%R) in *. pose proof u53_pos as U.
  assert (HA : (0 <= A <= / 2)%R).
  { unfold A. pose proof (pos_INR m). assert (INR m * u53 <= bpow radix2 (-13))%R.
    { apply IZR_le in Hm. rewrite <- INR_IZR_INZ in Hm. change (-13)%Z with (40 + -53)%Z. rewrite bpow_plus. fold u53. apply Rmult_le_compat_r; [lra|exact Hm]. }
    assert (bpow radix2 (-13) <= / 8)%R by (change (bpow radix2 (-13)) with (/ 8192)%R; lra). split; [nra|lra]. }
  pose proof (pos_INR c) as Zc. pose proof (pos_INR d) as Zd.
  assert (Bcd : (INR c + INR d <= bpow radix2 63)%R) by (rewrite <- plus_INR, INR_IZR_INZ; apply IZR_le in Hb; exact Hb).
  assert (B1000 : (2 * bpow radix2 63 <= bpow radix2 999)%R) by (change 2%R with (bpow radix2 1); rewrite <- bpow_plus; apply bpow_le; lia).
  assert (B999 : (bpow radix2 999 <= bpow radix2 1000)%R) by (apply bpow_le; lia).
  assert (Rc : (0 <= B2R Qc <= bpow radix2 999)%R) by (destruct Nc; split; nra).
  assert (Rd : (0 <= B2R Qd <= bpow radix2 999)%R) by (destruct Nd; split; nra).
  pose proof (Bplus_correct 53 1024 prec53 emax1024 mode_NE Qc Qd Fc Fd) as H. fold (rnd (B2R Qc + B2R Qd)) in H.
  destruct (sum_rel Qc Qd) as (e & He & Ee). apply Rabs_le_inv in He. pose proof u53_small as Us.
  rewrite Rlt_bool_true in H.
  2:{ rewrite Ee, Rabs_pos_eq by nra. apply Rle_lt_trans with (bpow radix2 999 * bpow radix2 2)%R; [change (bpow radix2 2) with 4%R; nra|].
      rewrite <- bpow_plus. apply bpow_lt. lia. }
  destruct H as (Vs & Fs & _). change (Bplus mode_NE Qc Qd) with (nadd Qc Qd) in Vs, Fs.
  assert (NE : neq (nadd Qc Qd) n0 = (c + d =? 0)).
  { destruct n0_f64 as (Z1 & Z2). assert (W : neq (nadd Qc Qd) n0 = Req_bool (B2R (nadd Qc Qd)) (B2R (n0 (V:=f64)))) by exact (Beqb_correct 53 1024 (nadd Qc Qd) n0 Fs Z2).
    rewrite W, Z1, Vs, Ee.
    destruct (Nat.eqb_spec (c + d) 0) as [E|E].
    - assert (c = 0 /\ d = 0) as (-> & ->) by lia. destruct Nc as (N1 & N2), Nd as (N3 & N4). cbn [INR] in *. apply Req_bool_true. nra.
    - apply Req_bool_false. destruct Nc as (N1 & N2), Nd as (N3 & N4).
      assert (1 <= INR c + INR d)%R by (rewrite <- plus_INR; change 1%R with (INR 1); apply le_INR; lia). nra. }
  unfold v, gk_gamma, g, real_gamma. rewrite NE, (Nat.add_comm d c). destruct (Nat.eqb_spec (c + d) 0) as [E|E].
  - destruct n0_f64 as (Z1 & Z2). split; [exact Z2|]. split; [reflexivity|]. split; [reflexivity|]. rewrite Z1.
    replace (0 - (if is_sim metric then 0 else 0))%R with 0%R by (destruct (is_sim metric); lra). rewrite Rabs_R0.
    apply Rmult_le_pos; [apply pos_INR|apply bpow_ge_0].
  - assert (T : (0 < INR c + INR d)%R) by (rewrite <- plus_INR; apply (lt_INR 0); lia).
    destruct (is_sim metric).
    + destruct (quot_close Qc Qd (nadd Qc Qd) (INR c) (INR d) A) as (F & B & C); try assumption; try lra.
      now apply (gamma_bound m _ _ _ A).
    + destruct (quot_close Qd Qc (nadd Qc Qd) (INR d) (INR c) A) as (F & B & C); try assumption; try lra; [rewrite Vs; f_equal; ring|].
      now apply (gamma_bound m _ _ _ A).
Qed.

Lemma powers_zero : powers 0 (INR 0) (B2R (n0 (V:=f64))).
Proof. destruct n0_f64 as (-> & _). unfold powers. cbn. lra. Qed.

(** ** C180: dense matrices *)
Theorem C180_accuracy :
  forall argsort sort, stable_ok argsort -> sort_ok sort ->
  forall (D : arr2 f64) (lab : list Z) metric,
    nrow D = ncol D -> length lab = nrow D -> valid_metric metric = true ->
    (forall i j, i < nrow D -> j < nrow D -> i <> j -> neq (at2 D i j) (at2 D j i) = true) ->
    (Z.of_nat (nrow D) <= 2 ^ 40)%Z -> (Z.of_nat (all_quadruples (nrow D) lab) < 2 ^ 63)%Z ->
    exists v, goodman_kruskal_index argsort sort D lab metric = Ok v /\
      gamma_close lab (if is_sim metric then real_gamma (n_larger D lab) (n_smaller D lab)
                       else real_gamma (n_smaller D lab) (n_larger D lab)) v.
Proof.
  intros argsort sort HA HS D lab metric Hsq HL Hv Hsym Hn Hq. unfold goodman_kruskal_index.
  destruct (gk_checks D lab metric Hsq HL Hv) as (C1 & C2 & C3). rewrite C1, C2, C3. cbn [bind]. eexists. split; [reflexivity|].
  unfold gamma_close. pose proof (counts_bound D lab) as CB. pose proof (nodup_length Z.eq_dec lab) as Hu. fold (class_count lab) in Hu. rewrite <- class_count_unique in Hu |- *.
  destruct (fold_close (gk_class argsort sort D lab) (ccN D lab) (dcN D lab) (fun c => 1 <? count_if (fun i => (nth i lab 0 =? c)%Z) (length lab))
    ltac:(intros Q c; now apply (gk_class_spec f64_cmp)) ltac:(intros c Hc; now apply small_ccN) (unique_labels lab) 0 0 0 (n0, n0)) as (F1 & F2 & P1 & P2).
  - cbn [Nat.add]. lia.
  - rewrite ccN_total, dcN_total by auto. cbn [Nat.add]. lia.
  - reflexivity.
  - reflexivity.
  - exact powers_zero.
  - exact powers_zero.
  - rewrite ccN_total in P1 by auto. rewrite dcN_total in P2 by auto. cbn [Nat.add] in P1, P2.
    destruct (fold_left _ _ _) as (Qc, Qd). apply index_close; try assumption; lia.
Qed.

(** ** sparse matrices without negative entries: the same value as for the
    dense matrix, bit for bit, whatever the size *)
Theorem C180_sparse_identical :
  forall argsort sort, stable_ok argsort -> sort_ok sort ->
  forall (S : arr2 f64) (lab : list Z) metric,
    nrow S = ncol S -> length lab = nrow S -> valid_metric metric = true ->
    (forall i j, i < nrow S -> j < nrow S -> i <> j -> neq (at2 S i j) (at2 S j i) = true) ->
    (forall i j, i < nrow S -> j < nrow S -> i <> j -> nle n0 (at2 S i j) = true) ->
    sparse_goodman_kruskal_index argsort sort S lab metric false false = goodman_kruskal_index argsort sort S lab metric.
Proof.
  intros argsort sort HA HS S lab metric Hsq HL Hv Hsym Hpos.
  unfold sparse_goodman_kruskal_index, goodman_kruskal_index.
  destruct (gk_checks S lab metric Hsq HL Hv) as (C1 & C2 & C3). destruct (sgk_checks S lab metric Hsq HL Hv) as (G1 & G2 & G3).
  rewrite C1, C2, C3, G1, G2. cbn [bind]. do 2 f_equal.
  generalize ((n0, n0) : f64 * f64). induction (unique_labels lab) as [|c l IH]; intros Q; [reflexivity|]. cbn [fold_left].
  rewrite IH. f_equal. rewrite (gk_class_spec f64_cmp) by assumption. apply (sgk_class_spec f64_cmp); auto; [|discriminate].
  intros i j Hij. apply Hpos; lia.
Qed.

(** ** The bound of C17 cannot simply be dropped: with more than 2^53 concordant
    quadruples a counter no longer counts single quadruples *)
Example C180_counter_saturates : neq (nadd (nofZ (2 ^ 53) : f64) (nofZ 1)) (nofZ (2 ^ 53)) = true.
Proof. vm_compute. reflexivity. Qed.

(** ** The hypotheses can be met: the four objects of C17's example *)
Example C180_case :
  (Z.of_nat (nrow exG) <= 2 ^ 40)%Z /\ all_quadruples (nrow exG) [5; 5; 8; 8]%Z = 8 /\ class_count [5; 5; 8; 8]%Z = 2 /\
  real_gamma (n_smaller exG [5; 5; 8; 8]%Z) (n_larger exG [5; 5; 8; 8]%Z) = (6 / 8)%R.
Proof.
  split; [vm_compute; discriminate|]. split; [vm_compute; reflexivity|]. split; [reflexivity|].
  replace (n_smaller exG [5; 5; 8; 8]%Z) with 7 by (symmetry; exact (f_equal fst ex_gk_counts)).
  replace (n_larger exG [5; 5; 8; 8]%Z) with 1 by (symmetry; exact (f_equal snd ex_gk_counts)).
  unfold real_gamma. cbn. lra.
Qed.

Print Assumptions C180_accuracy.
Print Assumptions C180_sparse_identical.
