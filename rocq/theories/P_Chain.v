(** Proofs: chains of secondary distances in float64. *)
From Coq Require Import String.
From Coq Require Import ZArith Reals Lra List Arith Lia Bool Permutation.
From Flocq Require Import Core BinarySingleNaN.
From Verif Require Import Py Num NumT Arr Sort Conc S_Neighbors S_LS S_MP S_SNN M_IO M_Hubness M_SNN M_LS M_MPEmpiric M_Chain.
From Verif Require Import P_F64 P_MPEmpiric P_LS P_LS2 P_LS3 P_MPEmpiric2 P_SNN S_LSFloat P_LSFloat S_NicdmAcc P_NicdmAcc S_Chain.
From Verif Require Import Properties_MP Properties_SNN Properties_LS Properties_NICDM Properties_LSFloat Properties_NicdmAcc.
Import ListNotations.
Local Open Scope nat_scope.
Local Open Scope R_scope.

Lemma sign_pos (x : f64) : nisfin x = true -> 0 < B2R x -> dist64 x.
Proof.
  intros F P. split; [exact F|]. destruct x as [s|s| |s m e H]; try discriminate; [cbn in P; lra|].
  destruct s; [|reflexivity]. exfalso. cbn in P. assert (K : F2R (Float radix2 (Zneg m) e) < 0) by (apply F2R_lt_0; reflexivity). lra.
Qed.
Lemma unit_fin (x : f64) : nle n0 x = true -> nle x n1 = true -> nisfin x = true.
Proof. destruct x as [s|[]| |s m e H]; try reflexivity; vm_compute; intros; discriminate. Qed.

Lemma ln_le_le x y : 0 < x -> x <= y -> ln x <= ln y.
Proof. intros H [L|E]; [left; now apply ln_increasing|subst; lra]. Qed.
Lemma exp_le_le x y : x <= y -> exp x <= exp y.
Proof. intros [L|E]; [left; now apply exp_increasing|subst; lra]. Qed.

Definition off_within (n : nat) (lo hi : Z) (M : arr2 f64) : Prop :=
  forall i j, (i < n)%nat -> (j < n)%nat -> i <> j -> nisfin (at2 M i j) = true /\ within lo hi (at2 M i j).

Lemma mp_proper n D M : nrow D = n -> ncol D = n -> (Z.of_nat n <= 2 ^ 53)%Z ->
  mp_empiric_full D "distance" TNone = Ok M -> proper n M /\ off_within n (-53) 0 M.
Proof.
  intros Hr Hc Hb H. subst n.
  destruct (mp_dist_formula D TNone M Hb H) as (R & C & Dg & Off).
  destruct (C08_mp_range D "distance" TNone M Hb H) as (Rg & Ps & _). specialize (Ps eq_refl).
  assert (Fin : forall i j, (i < nrow D)%nat -> (j < nrow D)%nat -> nisfin (at2 M i j) = true).
  { intros i j Hi Hj. destruct (Rg i j Hi Hj). now apply unit_fin. }
  split.
  - split; [exact R|]. split; [congruence|]. split; [intros i j Hi Hj; split; [now apply Fin|now apply Rg]|].
    split.
    + intros i j Hi Hj. destruct (Nat.lt_trichotomy i j) as [L|[->|L]].
      * rewrite (proj2 (Off i j L Hj)). apply same_refl.
      * apply same_refl.
      * rewrite (proj2 (Off j i L Hi)). apply same_refl.
    + intros i Hi. rewrite Dg by exact Hi. reflexivity.
  - assert (W : forall i j, (i < j)%nat -> (j < nrow D)%nat -> within (-53) 0 (at2 M i j)).
    { intros i j Hij Hj. assert (Hi : (i < nrow D)%nat) by lia. split.
      - rewrite (proj1 (Off i j Hij Hj)).
        assert (Hcount : (farther_from_both D (nrow D) i j (at2 D j i) < nrow D)%nat).
        { unfold farther_from_both.
          pose proof (count_if_three (fun x => nlt (at2 D j i) (at2 D i x) && nlt (at2 D j i) (at2 D j x)) (nrow D) i j). lia. }
        pose proof (frac_lt1 _ _ Hcount Hb) as F1.
        destruct (compl_correct (ndiv (V:=f64) (nofnat (farther_from_both D (nrow D) i j (at2 D j i))) (nofnat (nrow D)))) as (_ & E).
        { apply frac_unit; lia. }
        rewrite E. apply rnd_gt0. lra.
      - change (bpow radix2 0) with 1. destruct n1_f64 as (E1 & F1). rewrite <- E1. apply nle_B2R; [apply (Fin i j Hi Hj)|exact F1|now apply Rg]. }
    intros i j Hi Hj Hne. split; [now apply Fin|]. destruct (Nat.lt_trichotomy i j) as [L|[L|L]]; [now apply W|contradiction|].
    rewrite (proj2 (Off j i L Hi)). now apply W.
Qed.

Lemma snn_proper argpart n D k M : argpart_ok argpart -> nrow D = n -> ncol D = n -> (Z.of_nat n <= 2 ^ 53)%Z -> (0 < k < n)%nat ->
  (Ok M = snn_serial argpart D (Z.of_nat k) "distance" \/ snn_parallel argpart D (Z.of_nat k) "distance" (Ok M)) -> proper n M.
Proof.
  intros AP Hr Hc Hb Hk H. subst n.
  destruct (C14_snn_formula argpart AP "distance" D k eq_refl (eq_sym Hc)) as (M' & hood & E & R & C & _ & Dg & Off); try lia.
  assert (P : proper (nrow D) M').
  { assert (Rg : forall i j, (i < nrow D)%nat -> (j < nrow D)%nat -> nle n0 (at2 M' i j) = true /\ nle (at2 M' i j) n1 = true).
    { intros i j Hi Hj. destruct (Nat.eq_dec i j) as [->|Hne].
      - rewrite Dg by exact Hj. split; reflexivity.
      - destruct (Off i j Hi Hj Hne) as (_ & _ & _ & U). exact U. }
    split; [exact R|]. split; [congruence|]. split.
    - intros i j Hi Hj. destruct (Rg i j Hi Hj). split; [now apply unit_fin|assumption].
    - split.
      + intros i j Hi Hj. destruct (Nat.eq_dec i j) as [->|Hne]; [apply same_refl|].
        destruct (Off i j Hi Hj Hne) as (_ & _ & S & _). rewrite S. apply same_refl.
      + intros i Hi. rewrite Dg by exact Hi. reflexivity. }
  destruct H as [H|H].
  - rewrite E in H. injection H as ->. exact P.
  - destruct (C15_snn_parallel_equals_serial argpart D (Z.of_nat k) "distance") as (_ & Eq). specialize (Eq _ H). rewrite E in Eq.
    destruct Eq as (E1 & E2 & E3). destruct P as (P1 & P2 & P3 & P4 & P5).
    assert (T : forall i j, (i < nrow D)%nat -> (j < nrow D)%nat -> at2 M i j = at2 M' i j) by (intros i j Hi Hj; apply E3; congruence).
    split; [congruence|]. split; [congruence|]. split; [intros i j Hi Hj; rewrite T by assumption; now apply P3|].
    split; [intros i j Hi Hj; rewrite !T by assumption; now apply P4|intros i Hi; rewrite T by assumption; now apply P5].
Qed.

Lemma train_all n : length (training n None) = n.
Proof. apply seq_length. Qed.

Lemma within_dist n lo hi D : off_within n lo hi D -> (-500 <= lo)%Z -> (hi <= 500)%Z ->
  forall i j, (i < n)%nat -> (j < n)%nat -> i <> j -> dist64 (at2 D i j) /\ within (-500) 500 (at2 D i j).
Proof.
  intros H Hl Hh i j Hi Hj Hne. destruct (H i j Hi Hj Hne) as (F & A & B). split.
  - apply sign_pos; [exact F|]. pose proof (bpow_gt_0 radix2 lo). lra.
  - pose proof (bpow_le radix2 (-500) lo ltac:(lia)). pose proof (bpow_le radix2 hi 500 ltac:(lia)). split; lra.
Qed.

Lemma ls_proper vexp part n D k lo hi cpu jobs r : exp_ok vexp -> part_ok part -> nrow D = n -> ncol D = n ->
  off_within n lo hi D -> (-500 <= lo)%Z -> (hi <= 500)%Z -> (0 < k < n)%nat -> (1 <= workers cpu jobs)%Z ->
  local_scaling vexp part D (Z.of_nat k) "distance" None cpu jobs r -> exists L, r = Ok L /\ proper n L.
Proof.
  intros EO PO Hr Hc Hw Hl Hh Hk Wk H.
  destruct (C140_no_nan vexp part D n k None cpu jobs r EO PO Hr Hc (within_dist n lo hi D Hw Hl Hh)) as (L & -> & Rg); [rewrite train_all; exact Hk|exact Wk|exact H|].
  exists L. split; [reflexivity|].
  destruct (C27_ls_float64_symmetric vexp part D (Z.of_nat k) "distance" None cpu jobs L Wk H) as (R & C & Dg & Sy). rewrite Hr in *.
  split; [exact R|]. split; [exact C|]. split.
  - intros i j Hi Hj. destruct (Rg i j Hi Hj). split; [now apply unit_fin|assumption].
  - split; [exact Sy|]. intros i Hi. rewrite Dg by exact Hi. reflexivity.
Qed.

Lemma k_smallest_in (l s : list f64) k x : k_smallest l k s -> In x s -> In x l.
Proof. intros (_ & rest & P & _) Hx. apply (Permutation_in x (Permutation_sym P)). apply in_or_app. now left. Qed.

Lemma bpow_div a b : bpow radix2 a / bpow radix2 b = bpow radix2 (a - b).
Proof. unfold Zminus. rewrite bpow_plus, bpow_opp. reflexivity. Qed.

Lemma nicdm_proper vexp vln vsum eps part n D k lo hi cpu jobs r :
  bpow radix2 (-53) <= eps <= bpow radix2 (-20) -> sum_close eps n vsum -> ln_close eps vln -> exp_accurate eps vexp ->
  part_ok part -> nrow D = n -> ncol D = n -> (Z.of_nat n <= 2 ^ 53)%Z ->
  off_within n lo hi D -> (-300 <= lo)%Z -> (hi <= 300)%Z -> (0 < k < n)%nat ->
  nicdm vexp vln vsum part D (Z.of_nat k) "distance" None cpu jobs r ->
  exists L, r = Ok L /\ proper n L /\ off_within n (2 * lo - hi - 1) (2 * hi - lo + 1) L.
Proof.
  intros He Hs Hl Hx PO Hr Hc Hb Hw Hlo Hhi Hk H.
  destruct (C158_nicdm_accuracy vexp vln vsum eps part D n k None cpu jobs r He Hs Hl Hx PO Hr Hc Hb) as (L & near & -> & Rw & C & Near & Dg & Acc);
    [|rewrite train_all; exact Hk|exact H|].
  { intros i j Hi Hj Hne. destruct (Hw i j Hi Hj Hne) as (F & A & B). split; [exact F|].
    pose proof (bpow_le radix2 (-300) lo ltac:(lia)). pose proof (bpow_le radix2 hi 300 ltac:(lia)). split; lra. }
  exists L. split; [reflexivity|].
  assert (Pk : 0 < INR k) by (apply lt_0_INR; lia).
  assert (Pn : 0 < INR n) by (apply lt_0_INR; lia).
  pose proof (bpow_gt_0 radix2 lo) as Plo. pose proof (bpow_gt_0 radix2 hi) as Phi.
  set (Rr := fun i => total (map B2R (near i)) / INR k) in *.
  assert (RB : forall i, (i < n)%nat -> bpow radix2 lo <= Rr i <= bpow radix2 hi).
  { intros i Hi. apply div_bounds; [exact Pk|]. rewrite <- (proj1 (Near i Hi)). apply total_bounds.
    intros x Hx0. apply (k_smallest_in _ _ _ _ (Near i Hi)) in Hx0. apply others_in in Hx0 as (j & Hj & Hne & ->).
    apply Hw; auto. }
  cbv zeta in Acc.
  set (g := exp (total (map (fun i => ln (Rr i)) (seq 0 n)) / INR n)) in *.
  assert (GB : bpow radix2 lo <= g <= bpow radix2 hi).
  { assert (T : ln (bpow radix2 lo) <= total (map (fun i => ln (Rr i)) (seq 0 n)) / INR n <= ln (bpow radix2 hi)).
    { apply div_bounds; [exact Pn|]. pose proof (total_bounds (fun i => ln (Rr i))  (ln (bpow radix2 lo)) (ln (bpow radix2 hi)) (seq 0 n)) as T. rewrite seq_length in T. apply T.
      intros i Hi. apply in_seq in Hi. destruct (RB i ltac:(lia)) as (A & B). split; apply ln_le_le; lra. }
    unfold g. rewrite <- (exp_ln (bpow radix2 lo)), <- (exp_ln (bpow radix2 hi)) by assumption. split; apply exp_le_le; lra. }
  assert (E20 : 750 * eps <= / 2).
  { apply Rle_trans with (750 * bpow radix2 (-20)); [apply Rmult_le_compat_l; lra|]. change (bpow radix2 (-20)) with (/ IZR (2 ^ 20)).
    cut (1500 * / IZR (2 ^ 20) <= 1); [lra|]. change (2 ^ 20)%Z with 1048576%Z. lra. }
  assert (FB : forall i j, (i < n)%nat -> (j < n)%nat -> i <> j ->
     bpow radix2 (2 * lo - hi) <= g * B2R (at2 D i j) / sqrt (Rr i * Rr j) <= bpow radix2 (2 * hi - lo)).
  { intros i j Hi Hj Hne. destruct (RB i Hi) as (A1 & A2), (RB j Hj) as (B1 & B2). destruct (Hw i j Hi Hj Hne) as (_ & W1 & W2).
    assert (S1 : bpow radix2 lo <= sqrt (Rr i * Rr j) <= bpow radix2 hi).
    { rewrite <- (sqrt_square (bpow radix2 lo)), <- (sqrt_square (bpow radix2 hi)) by lra.
      split; apply sqrt_le_1_alt; apply Rmult_le_compat; lra. }
    assert (N1 : bpow radix2 lo * bpow radix2 lo <= g * B2R (at2 D i j) <= bpow radix2 hi * bpow radix2 hi).
    { split; apply Rmult_le_compat; lra. }
    replace (2 * lo - hi)%Z with ((lo + lo) - hi)%Z by lia. replace (2 * hi - lo)%Z with ((hi + hi) - lo)%Z by lia.
    rewrite <- !bpow_div, !bpow_plus. unfold Rdiv. split.
    - apply Rmult_le_compat; try lra; [apply Rmult_le_pos; lra|left; now apply Rinv_0_lt_compat|apply Rinv_le; lra].
    - apply Rmult_le_compat; try lra; [apply Rle_trans with (2 := proj1 N1); apply Rmult_le_pos; lra|left; apply Rinv_0_lt_compat; lra|apply Rinv_le; lra]. }
  assert (Off : off_within n (2 * lo - hi - 1) (2 * hi - lo + 1) L).
  { assert (Cl : forall v f, nisfin v = true -> Rabs (B2R v - f) <= 750 * eps * f -> 
       bpow radix2 (2 * lo - hi) <= f <= bpow radix2 (2 * hi - lo) -> within (2 * lo - hi - 1) (2 * hi - lo + 1) v).
    { intros v f F A (B1 & B2). pose proof (bpow_gt_0 radix2 (2 * lo - hi)) as P1.
      assert (A' : Rabs (B2R v - f) <= / 2 * f) by (apply Rle_trans with (1 := A); apply Rmult_le_compat_r; lra).
      apply Rabs_le_inv in A'. unfold within, Zminus. rewrite (bpow_plus radix2 _ (- (1))), (bpow_plus radix2 _ 1).
      change (bpow radix2 (- (1))) with (/ 2). change (bpow radix2 1) with 2. unfold Zminus in *. lra. }
    intros i j Hi Hj Hne. destruct (Nat.lt_trichotomy i j) as [Lt|[E|Lt]]; [|contradiction|].
    - destruct (Acc i j Lt Hj) as (_ & F & A & _). split; [exact F|]. apply (Cl _ _ F A). now apply FB.
    - destruct (Acc j i Lt Hi) as (_ & _ & _ & F & A). split; [exact F|]. apply (Cl _ _ F A). apply FB; [exact Hj|exact Hi|congruence]. }
  destruct (C32_nicdm_float64_symmetric vexp vln vsum part D (Z.of_nat k) "distance" None cpu jobs L H) as (_ & _ & _ & _ & Sy). rewrite Hr in Sy.
  split; [|exact Off]. destruct n0_f64 as (E0 & F0).
  split; [exact Rw|]. split; [exact C|]. split; [|split; [exact Sy|exact Dg]].
  intros i j Hi Hj. destruct (Nat.eq_dec i j) as [->|Hne].
  - pose proof (Dg j Hj) as E. destruct (at2 L j j) as [s|s| |s m e He0]; try (vm_compute in E; discriminate); [split; reflexivity| |].
    + destruct s; vm_compute in E; discriminate.
    + destruct s; vm_compute in E; discriminate.
  - destruct (Off i j Hi Hj Hne) as (F & W1 & _). split; [exact F|]. apply nle_B2R; [exact F0|exact F|].
    rewrite E0. pose proof (bpow_gt_0 radix2 (2 * lo - hi - 1)). lra.
Qed.

(** exponents after m calls of nicdm *)
Definition low (m : nat) : Z := match m with 0%nat => -53 | 1%nat => -107 | 2%nat => -269 | _ => -755 end.
Definition high (m : nat) : Z := match m with 0%nat => 0 | 1%nat => 54 | 2%nat => 216 | _ => 702 end.

Section Run.
  Variables (vexp vln : f64 -> f64) (vsum : list f64 -> f64) (eps : R).
  Variable part : list f64 -> list nat -> list f64.
  Variable argpart : list f64 -> list nat -> list nat.
  Variable n : nat.
  Hypothesis He : bpow radix2 (-53) <= eps <= bpow radix2 (-20).
  Hypothesis Hs : sum_close eps n vsum.
  Hypothesis Hl : ln_close eps vln.
  Hypothesis Hx : exp_accurate eps vexp.
  Hypothesis EO : exp_ok vexp.
  Hypothesis PO : part_ok part.
  Hypothesis AP : argpart_ok argpart.
  Hypothesis Hb : (Z.of_nat n <= 2 ^ 53)%Z.

  Definition fits (since : option nat) (D : arr2 f64) : Prop :=
    nrow D = n /\ ncol D = n /\ match since with None => True | Some m => off_within n (low m) (high m) D end.
  Definition next (c : scaling) (since : option nat) : option nat :=
    match c with SMp => Some 0%nat | SNicdm _ => match since with Some m => Some (S m) | None => None end | _ => None end.

  Lemma call_proper c l since D : safe since (c :: l) -> (0 < size_of c < n)%nat -> fits since D ->
    (exists r, call vexp vln vsum part argpart c D r) /\
    forall r, call vexp vln vsum part argpart c D r -> exists D', r = Ok D' /\ proper n D' /\ fits (next c since) D' /\ safe (next c since) l.
  Proof.
    intros Sf Hk (Hr & Hc & Hf). destruct c as [|k|k|k]; cbn [size_of] in Hk; cbn [call].
    - split; [eexists; reflexivity|]. intros r ->. rewrite (mp_full_ok D "distance" TNone (eq_trans Hr (eq_sym Hc)) eq_refl eq_refl).
      eexists. split; [reflexivity|].
      destruct (mp_proper n D _ Hr Hc Hb (mp_full_ok D "distance" TNone (eq_trans Hr (eq_sym Hc)) eq_refl eq_refl)) as (P & O).
      split; [exact P|]. split; [|exact Sf]. split; [apply P|]. split; [apply P|exact O].
    - destruct (C14_snn_formula argpart AP "distance" D k eq_refl) as (M & hood & E & _); try lia; try congruence.
      split; [eexists; left; reflexivity|]. intros r H.
      assert (T : exists D', r = Ok D').
      { destruct H as [->|H]; [eexists; exact E|]. destruct (C15_snn_parallel_equals_serial argpart D (Z.of_nat k) "distance") as (_ & Q).
        specialize (Q r H). rewrite E in Q. destruct r; [eexists; reflexivity|contradiction]. }
      destruct T as (D' & ->). exists D'. split; [reflexivity|].
      pose proof (snn_proper argpart n D k D' AP Hr Hc Hb Hk H) as P. split; [exact P|]. split; [|exact Sf].
      split; [apply P|]. split; [apply P|exact I].
    - cbn [safe] in Sf. destruct since as [m|]; [|contradiction]. destruct Sf as (Hm & Sf). split.
      + destruct (C29_some_outcome vexp part D (Z.of_nat k) "distance" None 1 1) as (r & H). exists r, 1%nat, 1%Z. split; [reflexivity|exact H].
      + intros r (cpu & jobs & W & H).
        destruct (ls_proper vexp part n D k (low m) (high m) cpu jobs r EO PO Hr Hc Hf) as (L & -> & P); try exact Hk; try exact W; try exact H.
        * destruct m as [|[|[|]]]; cbn; lia.
        * destruct m as [|[|[|]]]; cbn; lia.
        * exists L. split; [reflexivity|]. split; [exact P|]. split; [|exact Sf]. split; [apply P|]. split; [apply P|exact I].
    - cbn [safe] in Sf. destruct since as [m|]; [|contradiction]. destruct Sf as (Hm & Sf). split.
      + destruct (C29_nicdm_some_outcome vexp vln vsum part D (Z.of_nat k) "distance" None 1 1) as (r & H). exists r, 1%nat, 1%Z. exact H.
      + intros r (cpu & jobs & H).
        destruct (nicdm_proper vexp vln vsum eps part n D k (low m) (high m) cpu jobs r He Hs Hl Hx PO Hr Hc Hb Hf) as (L & -> & P & O);
          try exact Hk; try exact H.
        * destruct m as [|[|[|]]]; cbn; lia.
        * destruct m as [|[|[|]]]; cbn; lia.
        * exists L. split; [reflexivity|]. split; [exact P|]. split; [|exact Sf]. split; [apply P|]. split; [apply P|].
          cbn [next]. destruct m as [|[|[|]]]; try (exfalso; lia); exact O.
  Qed.

  Lemma chain_proper l : forall since D, l <> [] -> safe since l -> sizes_fit n l -> fits since D ->
    (exists r, chain vexp vln vsum part argpart D l r) /\
    forall r, chain vexp vln vsum part argpart D l r -> exists M, r = Ok M /\ proper n M.
  Proof.
    induction l as [|c l IH]; intros since D Hne Sf Sz Hf; [contradiction|].
    destruct (call_proper c l since D Sf (Sz c (or_introl eq_refl)) Hf) as ((r0 & H0) & Hall).
    assert (Sz' : sizes_fit n l) by (intros x Hx0; apply Sz; now right).
    split.
    - destruct (Hall r0 H0) as (D' & -> & _ & F' & S'). destruct l as [|c' l'].
      + eexists. eapply ch_ok; [exact H0|apply ch_nil].
      + destruct (IH (next c since) D' ltac:(discriminate) S' Sz' F') as ((r & H) & _). exists r. eapply ch_ok; [exact H0|exact H].
    - intros r H. inversion H as [|c1 l1 D' r1 H1 H2|c1 l1 e H1]; subst.
      + destruct (Hall _ H1) as (D'' & E & P & F' & S'). injection E as <-. destruct l as [|c' l'].
        * inversion H2; subst. exists D'. auto.
        * apply (IH (next c since) D' ltac:(discriminate) S' Sz' F'). exact H2.
      + destruct (Hall _ H1) as (D'' & E & _). discriminate.
  Qed.
End Run.
