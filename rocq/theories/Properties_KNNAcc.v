(** Property C177: the accuracy value of [score] in float64
    (knn_classification.py:140-246). *)
From Coq Require Import String.
From Coq Require Import ZArith Reals Lra List Arith Lia Bool Permutation.
From Flocq Require Import Core BinarySingleNaN.
From Verif Require Import Py Num NumT Arr Sort S_Neighbors S_KNN M_IO M_GK M_SNN M_KNN M_MPEmpiric M_SparseKNN S_SparseKNN S_SparseNaN.
From Verif Require Import P_GK2 P_KNN P_KNN2 P_F64 S_LSFloat P_LSAcc P_KNNAcc Properties_KNN Properties_SparseNaN2.
Import ListNotations.
Local Open Scope nat_scope.

(** [acc] is a finite number whose distance to (correct objects) / (objects) is
    at most 2^-52 per correct object *)
Definition close_to_share (points : list nat) (acc : f64) (corr : nat -> bool) : Prop :=
  let c := length (filter corr points) in
  nisfin acc = true /\
  (Rabs (B2R acc - INR c / INR (length points)) <= INR c * bpow radix2 (-52))%R.

Lemma filter_le {A} (f : A -> bool) l : length (filter f l) <= length l.
Proof. induction l as [|a l IH]; cbn; [lia|]. destruct (f a); cbn; lia. Qed.

Lemma consistent_close points lab cl acc corr cmat : @consistent f64 _ points lab cl acc corr cmat ->
  0 < length points -> (Z.of_nat (length points) <= 2 ^ 50)%Z -> close_to_share points acc corr.
Proof.
  intros H Hn Hb. unfold close_to_share. rewrite (co_acc _ _ _ _ _ _ H), <- acc_rep_iter.
  destruct (acc_close (length points) Hn Hb (length (filter corr points)) (filter_le _ _)) as (F & _ & E).
  split; [exact F|]. replace (bpow radix2 (-52)) with (2 * u53)%R; [exact E|].
  unfold u53. change 2%R with (bpow radix2 1). rewrite <- bpow_plus. reflexivity.
Qed.

Lemma consistent_order points lab cl acc corr cmat points' lab' cl' acc' corr' cmat' :
  @consistent f64 _ points lab cl acc corr cmat -> @consistent f64 _ points' lab' cl' acc' corr' cmat' ->
  length points = length points' -> 0 < length points -> (Z.of_nat (length points) <= 2 ^ 50)%Z ->
  (nlt acc acc' = true <-> length (filter corr points) < length (filter corr' points')) /\
  (acc = acc' <-> length (filter corr points) = length (filter corr' points')).
Proof.
  intros H H' El Hn Hb. rewrite (co_acc _ _ _ _ _ _ H), (co_acc _ _ _ _ _ _ H'), <- !acc_rep_iter. rewrite <- El.
  pose proof (filter_le corr points) as L. pose proof (filter_le corr' points') as L'. rewrite <- El in L'.
  set (c := length (filter corr points)) in *. set (c' := length (filter corr' points')) in *. set (n := length points) in *.
  destruct (acc_close n Hn Hb c L) as (F & _). destruct (acc_close n Hn Hb c' L') as (F' & _).
  split.
  - rewrite nlt_B2R by assumption. split.
    + intros Hlt. destruct (Nat.lt_ge_cases c c') as [|G]; [assumption|]. exfalso.
      destruct (Nat.eq_dec c c') as [E|E]; [rewrite E in Hlt; lra|].
      pose proof (acc_lt n Hn Hb c' c ltac:(lia) L). lra.
    + intros Hlt. now apply acc_lt.
  - split; [|now intros ->]. intros E. destruct (lt_eq_lt_dec c c') as [[G|G]|G]; [|exact G|].
    + pose proof (acc_lt n Hn Hb c c' G L'). rewrite E in *. lra.
    + pose proof (acc_lt n Hn Hb c' c G L). rewrite E in *. lra.
Qed.

(** ** leave-one-out evaluation *)
Theorem C177_leave_one_out :
  forall argsort, argsort_ok argsort ->
  forall rp, (forall i l, Permutation (rp i l) l) ->
  forall sh, (forall (i j : nat) l, Permutation (sh i j l) l) ->
  forall (D : arr2 f64) lab ks metric,
    nrow D = ncol D -> 0 < nrow D -> (Z.of_nat (nrow D) <= 2 ^ 50)%Z -> length lab = nrow D -> valid_metric metric = true ->
    exists out, score argsort rp sh D lab ks metric None None = Ok out /\ length out = length ks /\
      forall s, In s out -> close_to_share (seq 0 (nrow D)) (k_acc s) (k_corr s).
Proof.
  intros argsort AS rp RP sh SH D lab ks metric Hsq Hp Hb HL Hv.
  destruct (C20_leave_one_out argsort AS rp RP sh SH D lab ks metric (unique_labels lab) Hsq HL Hv) as (out & E & L & Hc).
  { split; [apply unique_sorted|intros c; now rewrite unique_In]. }
  exists out. split; [exact E|]. split; [exact L|]. intros s Hs. specialize (Hc s Hs).
  eapply consistent_close; [exact Hc|now rewrite seq_length|now rewrite seq_length].
Qed.

(** ** distances to a sample *)
Theorem C177_sample :
  forall argsort, argsort_ok argsort ->
  forall rp, (forall i l, Permutation (rp i l) l) ->
  forall sh, (forall (i j : nat) l, Permutation (sh i j l) l) ->
  forall (D : arr2 f64) lab ks metric sample,
    length sample = ncol D -> ncol D <= nrow D -> 0 < nrow D -> (Z.of_nat (nrow D) <= 2 ^ 50)%Z ->
    length lab = nrow D -> valid_metric metric = true -> (forall x, In x sample -> x < nrow D) ->
    exists out, score argsort rp sh D lab ks metric None (Some sample) = Ok out /\ length out = length ks /\
      forall s, In s out -> close_to_share (seq 0 (nrow D)) (k_acc s) (k_corr s).
Proof.
  intros argsort AS rp RP sh SH D lab ks metric smp Hs0 Hle Hp Hb HL Hv Hr.
  destruct (C20_sample argsort AS rp RP sh SH D lab ks metric smp (unique_labels lab) Hs0 Hle HL Hv Hr) as (out & E & L & Hc).
  { split; [apply unique_sorted|intros c; now rewrite unique_In]. }
  exists out. split; [exact E|]. split; [exact L|]. intros s Hs. specialize (Hc s Hs).
  eapply consistent_close; [exact Hc|now rewrite seq_length|now rewrite seq_length].
Qed.

(** ** test objects *)
Theorem C177_test_set :
  forall argsort, argsort_ok argsort ->
  forall rp, (forall i l, Permutation (rp i l) l) ->
  forall sh, (forall (i j : nat) l, Permutation (sh i j l) l) ->
  forall (D : arr2 f64) lab ks metric t,
    nrow D = ncol D -> length lab = nrow D -> valid_metric metric = true ->
    NoDup t -> (forall x, In x t -> x < nrow D) -> 0 < length t -> (Z.of_nat (length t) <= 2 ^ 50)%Z ->
    exists out, score argsort rp sh D lab ks metric (Some t) None = Ok out /\ length out = length ks /\
      forall s, In s out -> close_to_share t (k_acc s) (k_corr s).
Proof.
  intros argsort AS rp RP sh SH D lab ks metric t Hsq HL Hv Hn Hr Hp Hb.
  destruct (C20_test_set argsort AS rp RP sh SH D lab ks metric t (unique_labels lab) Hsq HL Hv Hn Hr) as (out & E & L & Hc).
  { split; [apply unique_sorted|intros c; now rewrite unique_In]. }
  exists out. split; [exact E|]. split; [exact L|]. intros s Hs. specialize (Hc s Hs).
  eapply consistent_close; [exact Hc|exact Hp|exact Hb].
Qed.

(** ** sparse similarities *)
Theorem C177_sparse :
  forall argpart : list f64 -> list nat -> list nat, argpart_ok argpart ->
  forall rp, (forall i l, Permutation (rp i l) l) ->
  forall sh, (forall (i j : nat) l, Permutation (sh i j l) l) ->
  forall (S : smat f64) (lab : list Z) (ks : list nat) metric,
    let n := length lab in
    srow S = n -> scol S = n -> 0 < n -> (Z.of_nat n <= 2 ^ 50)%Z -> metric = "similarity"%string \/ metric = "distance"%string ->
    (forall i, i < n -> exists x, linked S i x) -> (forall i, i < n -> readable S i) -> (forall k, In k ks -> 0 < k) ->
    exists out, score_sparse argpart rp sh S lab (map Z.of_nat ks) metric None None = Ok out /\ length out = length ks /\
      forall s, In s out -> close_to_share (seq 0 n) (k_acc s) (k_corr s).
Proof.
  intros argpart AP rp RP sh SH S lab ks metric n HR HC Hp Hb HM Hne Hrd Hk.
  assert (Hl : lab <> []) by (intros ->; cbn in Hp; lia).
  destruct (C176_votes argpart AP rp RP sh SH S lab ks metric (unique_labels lab) HR HC Hl HM) as (out & pred & unk & E & L & _ & Hc & _); auto.
  { split; [apply unique_sorted|intros c; now rewrite unique_In]. }
  exists out. split; [exact E|]. split; [exact L|]. intros s Hs. apply In_nth_error in Hs as (j & Hj). destruct (Hc j s Hj) as (_ & Hc').
  eapply consistent_close; [exact Hc'|now rewrite seq_length|now rewrite seq_length].
Qed.

(** ** comparing accuracies compares the numbers of correct objects *)
Theorem C177_order :
  forall argsort, argsort_ok argsort -> forall argsort', argsort_ok argsort' ->
  forall rp, (forall i l, Permutation (rp i l) l) -> forall rp', (forall i l, Permutation (rp' i l) l) ->
  forall sh, (forall (i j : nat) l, Permutation (sh i j l) l) -> forall sh', (forall (i j : nat) l, Permutation (sh' i j l) l) ->
  forall (D D' : arr2 f64) lab lab' ks ks' metric metric' out out' n,
    nrow D = n -> ncol D = n -> nrow D' = n -> ncol D' = n -> 0 < n -> (Z.of_nat n <= 2 ^ 50)%Z -> length lab = n -> length lab' = n ->
    valid_metric metric = true -> valid_metric metric' = true ->
    score argsort rp sh D lab ks metric None None = Ok out ->
    score argsort' rp' sh' D' lab' ks' metric' None None = Ok out' ->
    forall s s', In s out -> In s' out' ->
      let correct s := length (filter (k_corr s) (seq 0 n)) in
      (nlt (k_acc s) (k_acc s') = true <-> correct s < correct s') /\
      (k_acc s = k_acc s' <-> correct s = correct s').
Proof.
  intros argsort AS argsort' AS' rp RP rp' RP' sh SH sh' SH' D D' lab lab' ks ks' metric metric' out out' n R C R' C' Hp Hb HL HL' Hv Hv' E E' s s' Hs Hs' correct.
  destruct (C20_leave_one_out argsort AS rp RP sh SH D lab ks metric (unique_labels lab)) as (o & Eo & _ & Hc); [congruence|congruence|exact Hv| |].
  { split; [apply unique_sorted|intros c; now rewrite unique_In]. }
  destruct (C20_leave_one_out argsort' AS' rp' RP' sh' SH' D' lab' ks' metric' (unique_labels lab')) as (o' & Eo' & _ & Hc'); [congruence|congruence|exact Hv'| |].
  { split; [apply unique_sorted|intros c; now rewrite unique_In]. }
  rewrite E in Eo. injection Eo as <-. rewrite E' in Eo'. injection Eo' as <-. specialize (Hc s Hs). specialize (Hc' s' Hs'). rewrite R in Hc. rewrite R' in Hc'.
  unfold correct. eapply consistent_order; [exact Hc|exact Hc'|reflexivity|now rewrite seq_length|now rewrite seq_length].
Qed.

(** ** The hypotheses can be met: nine objects of one class (the accuracy is above 1
    by C21, but by at most 9 * 2^-52) *)
Example C177_case :
  exists out, score (ref_argsort (V:=f64)) (fun _ l => l) (fun _ _ l => l) (Arr2 9 9 (fun i j => if i =? j then n0 else n1)) (repeat 4%Z 9) [1]%Z "distance" None None = Ok out /\
    forall s, In s out -> nlt n1 (k_acc s) = true /\ (B2R (k_acc s) <= 1 + 9 * bpow radix2 (-52))%R.
Proof.
  destruct (C21_float_accuracy_above_one (ref_argsort (V:=f64)) (ref_argsort_ok f64_cmp) (fun _ l => l) ltac:(reflexivity) (fun _ _ l => l) ltac:(reflexivity)
     (Arr2 9 9 (fun i j => if i =? j then n0 else n1)) 4%Z [1]%Z "distance" eq_refl eq_refl eq_refl) as (out & E & _ & H).
  destruct (C177_leave_one_out (ref_argsort (V:=f64)) (ref_argsort_ok f64_cmp) (fun _ l => l) ltac:(reflexivity) (fun _ _ l => l) ltac:(reflexivity)
     (Arr2 9 9 (fun i j => if i =? j then n0 else n1)) (repeat 4%Z 9) [1]%Z "distance" eq_refl) as (out' & E' & _ & H'); [cbn; lia|cbn; lia|reflexivity|reflexivity|].
  rewrite E in E'. injection E' as <-. exists out. split; [exact E|]. intros s Hs. destruct (H s Hs) as (Hc & Hlt). split; [exact Hlt|].
  destruct (H' s Hs) as (_ & Hr). apply Rabs_le_inv in Hr.
  assert (Ef : filter (k_corr s) (seq 0 9) = seq 0 9).
  { cbn [seq filter]. rewrite !Hc by lia. reflexivity. }
  cbn [nrow] in Hr. rewrite Ef, seq_length in Hr. replace (INR 9 / INR 9)%R with 1%R in Hr by (cbn; lra). replace (INR 9) with 9%R in Hr by (cbn; lra). lra.
Qed.

Print Assumptions C177_leave_one_out.
Print Assumptions C177_sample.
Print Assumptions C177_test_set.
Print Assumptions C177_sparse.
Print Assumptions C177_order.
