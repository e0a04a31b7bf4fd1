(** C190: r_precision in float64 — error bounds for the values of the objects and for
    both averages, and what comparing the values of two objects says. *)
From Coq Require Import String.
From Coq Require Import ZArith Reals Lra List Arith Lia Bool Permutation.
From Flocq Require Import Core BinarySingleNaN.
From Verif Require Import Py Num NumT Arr Sort S_Neighbors M_IO M_GK M_SNN M_KNN M_MPEmpiric M_SparseKNN.
From Verif Require Import S_SparseKNN P_Neighbors P_KNN P_GK2 P_F64 P_F1 P_LSAcc P_Vec P_SparseKNN P_SparseKNN2 P_SparseKNN3 P_SparseKNN4 P_SparseKNN5 P_GKAcc P_F1Acc Properties_RPrec.
Import ListNotations.
Local Open Scope string_scope.
Local Open Scope nat_scope.

(** exact precision of an object with [h] hits among [r] relevant objects *)
Definition share_of (h r : nat) : R := if r =? 0 then 0%R else (INR h / INR r)%R.

Lemma item_acc lab i nn : (Z.of_nat (relevant lab i) <= 2 ^ 53)%Z -> hits lab i nn <= relevant lab i ->
  let v := item_val (V:=f64) lab i nn in
  is_finite v = true /\ (0 <= B2R v <= 1)%R /\ B2R v = rnd (share_of (hits lab i nn) (relevant lab i)) /\
  (B2R v = 0 \/ bpow radix2 (-107) <= B2R v)%R /\ (0 <= share_of (hits lab i nn) (relevant lab i))%R /\
  pw 1 (share_of (hits lab i nn) (relevant lab i)) (B2R v).
Proof.
  intros Hb Hh. cbv zeta. unfold item_val, share_of. destruct (Nat.eqb_spec (hits lab i nn) 0) as [E|E].
  - rewrite E. destruct n0_f64 as (-> & ->). split; [reflexivity|]. split; [lra|].
    assert (Z0 : (if relevant lab i =? 0 then 0 else INR 0 / INR (relevant lab i))%R = 0%R)
      by (destruct (relevant lab i =? 0); [reflexivity|unfold Rdiv; simpl; ring]).
    rewrite Z0, rnd_0. split; [reflexivity|]. split; [now left|]. split; [lra|]. unfold pw. lra.
  - assert (Er : (relevant lab i =? 0) = false) by (apply Nat.eqb_neq; lia). rewrite Er.
    destruct (frac_correct (hits lab i nn) (relevant lab i)) as ((F & _ & U) & Ev); [lia|lia|lia|].
    split; [exact F|]. split; [exact U|]. split; [exact Ev|].
    assert (B : (bpow radix2 (-53) <= INR (hits lab i nn) / INR (relevant lab i))%R) by (apply frac_big; lia).
    pose proof (bpow_gt_0 radix2 (-53)). split; [right|split; [lra|]].
    + rewrite Ev. apply Rle_trans with (rnd (bpow radix2 (-53))); [|now apply rnd_le].
      rewrite rnd_gen by (apply generic_format_bpow; vm_compute; discriminate). apply bpow_le. lia.
    + rewrite Ev. apply pw_rnd; [lra|apply (normal_ge _ (-53)); [lia|exact B]|apply pw_refl].
Qed.

Theorem C190_accuracy :
  forall argpart, argpart_ok argpart ->
  forall rp, (forall i l, Permutation (rp i l) l) ->
  forall sh, (forall (i j : nat) l, Permutation (sh i j l) l) ->
  forall vsum, (forall l, np_sum l (vsum l)) ->
  forall (S : smat f64) (lab : list Z) (yp : nat),
    similarities S (length lab) -> two_share lab ->
    (Z.of_nat (sum_nat (map (relevant lab) (seq 0 (length lab)))) <= 2 ^ 53)%Z ->
    (Z.of_nat (length lab) <= 2 ^ 50)%Z ->
    let n := length lab in
    let u := bpow radix2 (-53) in
    exists out nn, r_precision argpart rp sh vsum false S lab "similarity" yp = Ok out /\
      (forall i, i < n -> top_list (sval S i) (fun x => linked S i x /\ x <> i)
                      (Nat.min (relevant lab i) (n_linked S i)) (nn i)) /\
      let share i := share_of (hits lab i (nn i)) (relevant lab i) in
      (forall i, i < n -> (Rabs (B2R (nth i (rp_item out) nnan) - share i) <= u * share i)%R) /\
      (** equal precisions get equal numbers; different ones are told apart *)
      (forall i j, i < n -> j < n -> (share i = share j)%R ->
         neq (nth i (rp_item out) nnan) (nth j (rp_item out) nnan) = true) /\
      (forall i j, i < n -> j < n -> (Z.of_nat (relevant lab i) <= 2 ^ 25)%Z -> (Z.of_nat (relevant lab j) <= 2 ^ 25)%Z ->
         (share i < share j)%R -> nlt (nth i (rp_item out) nnan) (nth j (rp_item out) nnan) = true) /\
      (let exact := (fold_right Rplus 0 (map share (seq 0 n)) / INR n)%R in
       (Rabs (B2R (rp_macro out) - exact) <= 2 * (INR (n + 1) * u) * exact)%R) /\
      (let exact := (INR (sum_nat (map (fun i => hits lab i (nn i)) (seq 0 n))) /
                     INR (sum_nat (map (relevant lab) (seq 0 n))))%R in
       (Rabs (B2R (rp_weighted out) - exact) <= 2 * (INR (n + 2) * u) * exact)%R).
Proof.
  intros argpart AP rp RP sh SH vsum VS S lab yp [HR HC Hcl Hsf] Hm Hb1 Hb2 n u.
  destruct (rprec_run f64_cmp argpart AP rp RP sh SH vsum S lab yp HR HC Hcl) as (W & NN & NN' & Hs & ->).
  { intros i Hi _. now apply self_cols, Hsf. } { now apply share_mates. }
  eexists. exists NN. split; [reflexivity|]. cbn [rp_item rp_macro rp_weighted]. fold n.
  assert (Hpos : 0 < sum_nat (map (relevant lab) (seq 0 n)) /\ 0 < n).
  { destruct (share_mates lab Hm) as (i0 & Hi0 & Hr).
    pose proof (sum_nat_ge (relevant lab) (seq 0 n) i0 ltac:(apply in_seq; unfold n; lia)). unfold n in *. lia. }
  assert (Top : forall i, i < n -> top_list (sval S i) (fun x => linked S i x /\ x <> i) (Nat.min (relevant lab i) (n_linked S i)) (NN i)).
  { intros i Hi. destruct (Hs i Hi) as (A & B & _). destruct (Nat.eq_dec (relevant lab i) 0) as [E|E].
    + rewrite (A E), E. simpl. constructor; simpl; auto; try constructor; try contradiction. discriminate.
    + destruct (B E) as (Hl & Hmx & T). rewrite (self_first_max S i (W i) (Hsf i Hi) Hl Hmx) in T.
      rewrite (n_linked_cols S i (proj1 (Hsf i Hi))) in T. simpl in T. rewrite Nat.sub_0_r in T. exact T. }
  split; [exact Top|]. cbv zeta. set (share := fun i => share_of (hits lab i (NN i)) (relevant lab i)).
  set (v := fun i => item_val (V:=f64) lab i (NN' i)).
  assert (Rb : forall i, i < n -> (Z.of_nat (relevant lab i) <= 2 ^ 53)%Z).
  { intros i Hi. pose proof (sum_nat_ge (relevant lab) (seq 0 n) i ltac:(apply in_seq; lia)). unfold n in *. lia. }
  assert (Hh : forall i, i < n -> hits lab i (NN i) <= relevant lab i).
  { intros i Hi. pose proof (tl_len _ _ _ _ (Top i Hi)) as L. unfold hits.
    assert (F : forall g (l : list nat), length (filter g l) <= length l) by (intros g l; induction l as [|a l IH]; simpl; [lia|destruct (g a); simpl; lia]).
    specialize (F (fun x => (nth x lab 0 =? nth i lab 0)%Z) (NN i)). lia. }
  assert (A : forall i, i < n -> is_finite (v i) = true /\ (0 <= B2R (v i) <= 1)%R /\ B2R (v i) = rnd (share i) /\
     (B2R (v i) = 0 \/ bpow radix2 (-107) <= B2R (v i))%R /\ (0 <= share i)%R /\ pw 1 (share i) (B2R (v i))).
  { intros i Hi. destruct (Hs i Hi) as (_ & _ & C & _). unfold v, share. rewrite <- (hits_perm lab i _ _ C).
    apply item_acc; [now apply Rb|]. rewrite (hits_perm lab i _ _ C). now apply Hh. }
  assert (E : forall i, i < n -> nth i (map v (seq 0 n)) nnan = v i) by (intros i Hi; now rewrite nth_map_seq).
  assert (Hu : (INR (n + 2) * u53 <= / 2)%R).
  { apply Rle_trans with (IZR (2 ^ 52) * u53)%R.
    - apply Rmult_le_compat_r; [left; apply u_bounds|]. rewrite INR_IZR_INZ. apply IZR_le. unfold n in *. lia.
    - right. change (IZR (2 ^ 52)) with (bpow radix2 52). unfold u53. rewrite <- bpow_plus. reflexivity. }
  assert (Hu1 : (INR (n + 1) * u53 <= / 2)%R).
  { apply Rle_trans with (2 := Hu). apply Rmult_le_compat_r; [left; apply u_bounds|]. apply le_INR. lia. }
  split; [|split; [|split; [|split]]].
  - intros i Hi. rewrite E by exact Hi. destruct (A i Hi) as (_ & _ & _ & _ & P & W1). destruct W1 as (W1 & W2). simpl in W1, W2.
    change u with u53. apply Rabs_le. fold (share i). split; lra.
  - intros i j Hi Hj Heq. fold (share i) (share j) in Heq. rewrite !E by assumption. destruct (A i Hi) as (F & _ & V & _). destruct (A j Hj) as (F' & _ & V' & _).
    change (neq (v i) (v j)) with (Beqb (v i) (v j)). rewrite Beqb_correct by assumption. rewrite V, V', Heq. now apply Req_bool_true.
  - intros i j Hi Hj Bi Bj Hlt. fold (share i) (share j) in Hlt. rewrite !E by assumption. destruct (A i Hi) as (F & _ & V & _ & P & Wi). destruct (A j Hj) as (F' & _ & V' & _ & P' & Wj).
    apply nlt_B2R; [exact F|exact F'|].
    assert (S1 : forall k, k < n -> (share k <= 1)%R).
    { intros k Hk. unfold share, share_of. destruct (Nat.eqb_spec (relevant lab k) 0) as [Z|Z]; [lra|].
      assert (0 < INR (relevant lab k))%R by (apply lt_0_INR; lia). apply (Rmult_le_reg_r (INR (relevant lab k))); [assumption|].
      unfold Rdiv. rewrite Rmult_assoc, Rinv_l, Rmult_1_r, Rmult_1_l by lra. apply le_INR. now apply Hh. }
    assert (Gap : (bpow radix2 (-50) <= share j - share i)%R).
    { unfold share, share_of in *. destruct (Nat.eqb_spec (relevant lab j) 0) as [Zj|Zj]; [lra|].
      assert (Pj : (0 < INR (relevant lab j))%R) by (apply lt_0_INR; lia).
      destruct (Nat.eqb_spec (relevant lab i) 0) as [Zi|Zi].
      - rewrite Rminus_0_r. apply Rle_trans with (bpow radix2 (-25)); [apply bpow_le; lia|].
        assert (0 < hits lab j (NN j)). { destruct (hits lab j (NN j)); [|lia]. exfalso. unfold Rdiv in Hlt. simpl in Hlt. lra. }
        apply Rle_trans with (/ INR (relevant lab j))%R.
        + change (bpow radix2 (-25)) with (/ IZR (2 ^ 25))%R. rewrite INR_IZR_INZ. apply Rinv_le; [apply IZR_lt; lia|apply IZR_le; lia].
        + unfold Rdiv. rewrite <- (Rmult_1_l (/ INR (relevant lab j))) at 1. apply Rmult_le_compat_r; [left; now apply Rinv_0_lt_compat|].
          apply (le_INR 1). lia.
      - assert (Pi : (0 < INR (relevant lab i))%R) by (apply lt_0_INR; lia).
        set (hi := hits lab i (NN i)) in *. set (hj := hits lab j (NN j)) in *. set (ri := relevant lab i) in *. set (rj := relevant lab j) in *.
        assert (Hz : hi * rj + 1 <= hj * ri).
        { enough (hi * rj < hj * ri) by lia. apply INR_lt. rewrite !mult_INR. apply (Rmult_lt_compat_r (INR ri * INR rj)) in Hlt; [|now apply Rmult_lt_0_compat].
          replace (INR hi / INR ri * (INR ri * INR rj))%R with (INR hi * INR rj)%R in Hlt by (field; lra).
          replace (INR hj / INR rj * (INR ri * INR rj))%R with (INR hj * INR ri)%R in Hlt by (field; lra). exact Hlt. }
        replace (INR hj / INR rj - INR hi / INR ri)%R with ((INR (hj * ri) - INR (hi * rj)) * / (INR ri * INR rj))%R by (rewrite !mult_INR; field; lra).
        rewrite <- (Rmult_1_l (bpow radix2 (-50))). apply Rmult_le_compat; [lra|apply bpow_ge_0| |].
        + apply le_INR in Hz. rewrite plus_INR in Hz. simpl (INR 1) in Hz. lra.
        + replace (bpow radix2 (-50)) with (/ (IZR (2 ^ 25) * IZR (2 ^ 25)))%R by (rewrite <- mult_IZR; reflexivity).
          rewrite !INR_IZR_INZ. apply Rinv_le; [apply Rmult_lt_0_compat; apply IZR_lt; lia|].
          apply Rmult_le_compat; apply IZR_le; lia. }
    destruct Wi as (_ & Wi). destruct Wj as (Wj & _). simpl in Wi, Wj.
    pose proof (S1 i Hi). pose proof (S1 j Hj).
    assert (U8 : (8 * u53 = bpow radix2 (-50))%R).
    { unfold u53. change 8%R with (bpow radix2 3). rewrite <- bpow_plus. reflexivity. }
    pose proof u_bounds. nra.
  - assert (G : pw (1 + length (map v (seq 0 n))) (fold_right Rplus 0%R (map share (seq 0 n)) / IZR (Z.of_nat n))%R (B2R (ndiv (vsum (map v (seq 0 n))) (nofZ (Z.of_nat n))))).
    { apply avg_pw; [apply VS|now rewrite !map_length|rewrite map_length, seq_length; lia|rewrite map_length, seq_length; unfold n in *; lia|unfold n in *; lia|].
      intros i Hi. rewrite map_length, seq_length in Hi. rewrite !nth_map_seq by exact Hi. destruct (A i Hi) as (F & B & V & Zb & P & W1).
      repeat (split; [assumption|]). split; [|split; assumption]. split; [lra|]. apply Rle_trans with 1%R; [lra|]. change 1%R with (bpow radix2 0). apply bpow_le. lia. }
    rewrite map_length, seq_length, <- INR_IZR_INZ in G. change u with u53. replace (n + 1) with (1 + n) by lia.
    apply pw_abs; [|replace (1 + n) with (n + 1) by lia; exact Hu1|exact G].
    apply Rmult_le_pos; [|left; apply Rinv_0_lt_compat, lt_0_INR; lia].
    assert (Sp : forall l, (forall i, In i l -> i < n) -> (0 <= fold_right Rplus 0 (map share l))%R).
    { induction l as [|a l IH]; intros Hl; simpl; [lra|]. destruct (A a (Hl a ltac:(now left))) as (_ & _ & _ & _ & P & _).
      assert (0 <= fold_right Rplus 0 (map share l))%R by (apply IH; intros; apply Hl; now right). lra. }
    apply Sp. intros i Hi. apply in_seq in Hi. lia.
  - set (w := sum_nat (map (relevant lab) (seq 0 n))) in *.
    set (vw := fun i => nmul (v i) (nofnat (V:=f64) (relevant lab i))).
    assert (G : pw (2 + length (map vw (seq 0 n))) (fold_right Rplus 0%R (map (fun i => INR (hits lab i (NN i))) (seq 0 n)) / IZR (Z.of_nat w))%R (B2R (ndiv (vsum (map vw (seq 0 n))) (nofZ (Z.of_nat w))))).
    { apply avg_pw; [apply VS|now rewrite !map_length|rewrite map_length, seq_length; lia|rewrite map_length, seq_length; unfold n in *; lia|unfold n in *; lia|].
      intros i Hi. rewrite map_length, seq_length in Hi. rewrite !nth_map_seq by exact Hi. destruct (A i Hi) as (F & B & V & Zb & P & W1).
      specialize (Rb i Hi). destruct (f64_ofZ_exact (Z.of_nat (relevant lab i))) as (Ew & Fw); [lia|].
      assert (Eu : B2R (nofnat (V:=f64) (relevant lab i)) = IZR (Z.of_nat (relevant lab i))) by exact Ew.
      assert (Fu : is_finite (nofnat (V:=f64) (relevant lab i)) = true) by exact Fw.
      assert (Iw : (0 <= IZR (Z.of_nat (relevant lab i)) <= IZR (2 ^ 53))%R) by (split; apply IZR_le; lia).
      assert (Rg : (0 <= B2R (v i) * IZR (Z.of_nat (relevant lab i)) <= IZR (2 ^ 53))%R).
      { split; [apply Rmult_le_pos; lra|]. apply Rle_trans with (1 * IZR (2 ^ 53))%R; [apply Rmult_le_compat; lra|lra]. }
      destruct (nn_below _ _ Rg ltac:(lia)) as (N1 & N2).
      destruct (f_mul (v i) (nofnat (relevant lab i)) F Fu) as (Fm & Em); [now rewrite Eu|].
      unfold vw. rewrite Em, Eu.
      assert (Zp : (B2R (v i) * IZR (Z.of_nat (relevant lab i)) = 0 \/ bpow radix2 (-107) <= B2R (v i) * IZR (Z.of_nat (relevant lab i)))%R).
      { destruct (Nat.eq_dec (relevant lab i) 0) as [E0|E0]; [left; rewrite E0; simpl; ring|].
        destruct Zb as [Zb|Zb]; [left; rewrite Zb; ring|right].
        assert (1 <= IZR (Z.of_nat (relevant lab i)))%R by (apply IZR_le; lia).
        pose proof (bpow_ge_0 radix2 (-107)). rewrite <- (Rmult_1_r (bpow radix2 (-107))). apply Rmult_le_compat; lra. }
      assert (Eh : (INR (hits lab i (NN i)) = share i * INR (relevant lab i))%R).
      { unfold share, share_of. destruct (Nat.eqb_spec (relevant lab i) 0) as [E0|E0].
        - specialize (Hh i Hi). replace (hits lab i (NN i)) with 0 by lia. simpl. ring.
        - field. now apply not_0_INR. }
      split; [exact Fm|]. split; [apply pos_INR|]. split; [|split].
      - split; [apply N1|]. apply Rle_trans with (1 := proj2 N1). change (IZR (2 ^ 53)) with (bpow radix2 53). apply bpow_le. lia.
      - destruct Zp as [Zp|Zp]; [left; rewrite Zp; apply rnd_0|right].
        rewrite <- (rnd_gen (bpow radix2 (-107))); [now apply rnd_le|]. apply generic_format_bpow. vm_compute. discriminate.
      - apply (pw_rnd 1); [apply pos_INR| |].
        + destruct Zp as [Zp|Zp]; [now left|now apply (normal_ge _ (-107))].
        + rewrite Eh. rewrite INR_IZR_INZ. apply (pw_mul 1 0); [exact P|lra|exact W1|apply pw_refl]. }
    rewrite map_length, seq_length, <- INR_IZR_INZ in G. change u with u53. replace (n + 2) with (2 + n) by lia.
    assert (Ef : forall l, (fold_right Rplus 0 (map (fun i => INR (hits lab i (NN i))) l) = INR (sum_nat (map (fun i => hits lab i (NN i)) l)))%R).
    { induction l as [|a l IH]; [reflexivity|]. cbn [map fold_right]. rewrite IH, <- plus_INR. reflexivity. }
    rewrite Ef in G. apply pw_abs; [|replace (2 + n) with (n + 2) by lia; exact Hu|exact G].
    apply Rmult_le_pos; [apply pos_INR|left; apply Rinv_0_lt_compat, lt_0_INR; lia].
Qed.

(** the hypotheses hold for the example of C100: four objects in two classes *)
Example C190_case : similarities exS (length exlab) /\ two_share exlab /\
  (Z.of_nat (sum_nat (map (relevant exlab) (seq 0 (length exlab)))) <= 2 ^ 53)%Z /\ (Z.of_nat (length exlab) <= 2 ^ 50)%Z.
Proof.
  destruct C100_case as (A & B & C & _). split; [exact A|]. split; [exact B|]. split; [exact C|vm_compute; discriminate].
Qed.

Print Assumptions C190_accuracy.
