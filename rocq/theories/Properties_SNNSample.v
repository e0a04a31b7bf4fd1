(** Properties C119-C120: snn_sample (shared_neighbors.py:27-168), float64. *)
From Coq Require Import String.
From Coq Require Import ZArith List Arith Lia Bool Permutation.
From Verif Require Import Py Num Arr Sort Conc S_Neighbors S_SNN M_IO M_SNN M_SNNSample.
From Verif Require Import P_Neighbors P_F64 P_Hubness P_MPEmpiric2 P_SNN P_SNNSample.
Import ListNotations.
Local Open Scope nat_scope.

(** ** C119: whatever the number of jobs, of processors and the scheduling,
    snn_sample produces the outcome of the serial run: the same matrix or the
    same exception; and every such call has an outcome. *)
Theorem C119_snn_sample_any_jobs_same_result :
  forall (argsort : list f64 -> list nat) (cpus jobs : Z) (D : arr2 f64) (k : Z) metric train test,
    (exists r, snn_sample_jobs argsort cpus jobs D k metric train test r) /\
    forall r, snn_sample_jobs argsort cpus jobs D k metric train test r ->
      match r, snn_sample argsort D k metric train test with
      | Ok M, Ok M' => eq2 M M'
      | Raise e, Raise e' => e = e'
      | _, _ => False
      end.
Proof.
  intros. unfold snn_sample_jobs.
  destruct (1 <? (if (jobs =? -1)%Z then cpus else jobs))%Z.
  - split; [apply snn_sample_parallel_exists|]. intros r. apply snn_sample_parallel_serial.
  - split; [eauto|]. intros r ->.
    destruct (snn_sample argsort D k metric train test); [|reflexivity].
    repeat split; reflexivity.
Qed.

(** ** C120 (1): all results lie in [0, 1]; the result for a list of test rows
    consists of the rows of the result for all rows, in the order asked for. *)
Theorem C120_snn_sample_unit_and_rows :
  forall (argsort : list f64 -> list nat), argsort_ok argsort ->
  forall (D : arr2 f64) k metric train test,
    ncol D <= nrow D -> length train = ncol D -> valid_metric metric = true ->
    (forall s, In s train -> s < nrow D) -> (forall s, In s test -> s < nrow D) ->
    0 < k -> k <= ncol D -> (Z.of_nat k <= 2 ^ 53)%Z ->
    exists M M',
      snn_sample argsort D (Z.of_nat k) metric train (Some (seq 0 (nrow D))) = Ok M /\
      snn_sample argsort D (Z.of_nat k) metric train (Some test) = Ok M' /\
      nrow M' = length test /\ ncol M' = ncol D /\
      (forall a j, a < length test -> j < ncol D -> at2 M' a j = at2 M (nth a test 0) j) /\
      (forall i j, i < nrow D -> j < ncol D ->
         nle n0 (at2 M i j) = true /\ nle (at2 M i j) n1 = true).
Proof.
  intros argsort AS D k metric train test Hn Hl Hv Ht Hte Hk0 Hk Hb.
  destruct (snn_sample_spec f64_cmp argsort AS D k metric train (Some (seq 0 (nrow D))) Hn Hl Hv Ht)
    as (M & h & HM & Eh & Kh & R & C & A).
  { intros s Hs. apply in_seq in Hs. lia. } { assumption. }
  destruct (snn_sample_spec f64_cmp argsort AS D k metric train (Some test) Hn Hl Hv Ht Hte Hk)
    as (M' & h' & HM' & Eh' & _ & R' & C' & A').
  rewrite seq_length in R.
  exists M, M'. split; [exact HM|]. split; [exact HM'|]. split; [exact R'|]. split; [exact C'|]. split.
  - intros a j Ha Hj. assert (nth a test 0 < nrow D) by (apply Hte, nth_In; assumption).
    rewrite A' by (lia || assumption). rewrite A by (lia || assumption).
    rewrite seq_nth by assumption. simpl (0 + nth a test 0). rewrite !Eh, !Eh'. reflexivity.
  - intros i j Hi Hj. rewrite A by (lia || assumption). rewrite seq_nth by assumption. simpl (0 + i).
    apply unit_bounds. destruct (nth j train 0 =? i).
    + unfold snn_self. destruct (is_sim metric); [apply n1_unit|apply n0_unit].
    + apply snn_val_unit; auto. destruct (Kh i Hi) as [L _ _ _]. rewrite <- L. apply overlap_le.
Qed.

(** ** C120 (2): with every object in the sample and no tied or infinite
    distances between different objects, snn_sample computes what
    shared_nearest_neighbors computes, for every legal k and either metric,
    whatever argsort and argpartition do. *)
Theorem C120_full_sample_equals_shared_nearest_neighbors :
  forall (argsort : list f64 -> list nat) (argpart : list f64 -> list nat -> list nat),
    argsort_ok argsort -> argpart_ok argpart ->
  forall (D : arr2 f64) k metric,
    nrow D = ncol D -> valid_metric metric = true -> 0 < k -> k < nrow D -> (Z.of_nat k <= 2 ^ 53)%Z ->
    (forall i x, i < nrow D -> x < nrow D -> x <> i -> nisfin (at2 D i x) = true) ->
    (forall i x y, i < nrow D -> x < nrow D -> y < nrow D -> x <> i -> y <> i -> x <> y ->
       nlt (at2 D i x) (at2 D i y) = true \/ nlt (at2 D i y) (at2 D i x) = true) ->
    exists M M1 M2,
      snn_serial argpart D (Z.of_nat k) metric = Ok M /\
      snn_sample argsort D (Z.of_nat k) metric (seq 0 (nrow D)) None = Ok M1 /\
      snn_sample argsort D (Z.of_nat k) metric (seq 0 (nrow D)) (Some (seq 0 (nrow D))) = Ok M2 /\
      eq2 M1 M /\ eq2 M2 M.
Proof.
  intros argsort argpart AS AP D k metric Hsq Hv Hk0 Hk Hb Hf Hnt.
  destruct (snn_formula argpart AP metric D k Hv Hsq Hk0 Hb (or_introl Hk))
    as (M & hood & HM & R & C & K & Dg & A).
  assert (Ht : forall s, In s (seq 0 (nrow D)) -> s < nrow D)
    by (intros s Hs; apply in_seq in Hs; lia).
  assert (Hl : length (seq 0 (nrow D)) = ncol D) by (rewrite seq_length; assumption).
  assert (Hn : ncol D <= nrow D) by lia. assert (Hkc : k <= ncol D) by lia.
  destruct (snn_sample_spec f64_cmp argsort AS D k metric _ None Hn Hl Hv Ht I Hkc)
    as (M1 & h & HM1 & Eh & Kh & R1 & C1 & A1).
  destruct (snn_sample_spec f64_cmp argsort AS D k metric _ (Some (seq 0 (nrow D))) Hn Hl Hv Ht Ht Hkc)
    as (M2 & h2 & HM2 & Eh2 & _ & R2 & C2 & A2).
  rewrite seq_length in R2.
  exists M, M1, M2. split; [exact HM|]. split; [exact HM1|]. split; [exact HM2|].
  assert (T : forall i, i < nrow D -> forall x y, x < nrow D -> y < nrow D -> x <> y ->
    nearer metric (rank_value metric D i x) (rank_value metric D i y) = true \/
    nearer metric (rank_value metric D i y) (rank_value metric D i x) = true).
  { intros i Hi x y Hx Hy Hne. unfold rank_value, nearer, worst.
    destruct (valid_metric_cases metric Hv) as [(_ & _ & ->)|(_ & _ & ->)];
    destruct (Nat.eqb_spec x i), (Nat.eqb_spec y i); subst; try contradiction.
    - right. apply (fin_lt_inf f64_cmp). now apply Hf.
    - left. apply (fin_lt_inf f64_cmp). now apply Hf.
    - now apply Hnt.
    - right. apply (ninf_lt_fin f64_cmp). now apply Hf.
    - left. apply (ninf_lt_fin f64_cmp). now apply Hf.
    - destruct (Hnt i x y); auto. }
  assert (K' : forall i, i < nrow D ->
    kset (fun x y => nearer metric (rank_value metric D i x) (rank_value metric D i y))
            (nrow D) k (h i)).
  { intros i Hi. destruct (Kh i Hi) as [L1 L2 L3 L4]. constructor; auto.
    - intros x Hx. rewrite Hsq. auto.
    - intros x y Hx Hnx Hy. specialize (L4 x y).
      assert (E : forall z, z < nrow D -> rank_value_s metric D (seq 0 (nrow D)) i z = rank_value metric D i z).
      { intros z Hz. unfold rank_value_s, rank_value. rewrite seq_nth by assumption. reflexivity. }
      rewrite !E in L4 by (try assumption; rewrite Hsq; auto). apply L4; auto. lia. }
  assert (S : forall i, i < nrow D -> forall x, In x (h i) <-> In x (hood i)).
  { intros i Hi x. split; [apply (kset_unique _ _ _ _ _ (T i Hi) (K' i Hi) (K i Hi))
                          |apply (kset_unique _ _ _ _ _ (T i Hi) (K i Hi) (K' i Hi))]. }
  assert (O : forall i j, i < nrow D -> j < nrow D -> overlap (h i) (h j) = overlap (hood i) (hood j)).
  { intros i j Hi Hj. apply overlap_ext; [apply (K' i Hi)|apply (K i Hi)|now apply S|now apply S]. }
  assert (H2 : forall i, h2 i = h i) by (intros; rewrite Eh, Eh2; reflexivity).
  split; (split; [congruence|split; [congruence|]]).
  - rewrite R1, C1, <- Hsq. intros i j Hi Hj. rewrite A1 by (rewrite ?R1, <- ?Hsq; assumption).
    rewrite seq_nth by assumption. simpl (0 + j).
    destruct (Nat.eqb_spec i j) as [->|Hne]; [symmetry; now apply Dg|].
    rewrite O by assumption. symmetry. now apply A.
  - rewrite R2, C2, <- Hsq. intros i j Hi Hj. rewrite A2 by (rewrite ?R2, <- ?Hsq; assumption).
    rewrite !seq_nth by assumption. simpl (0 + _). rewrite Nat.eqb_sym.
    destruct (Nat.eqb_spec i j) as [->|Hne]; [symmetry; now apply Dg|].
    rewrite !H2, O by assumption. symmetry. now apply A.
Qed.

(* ------------------------------------------------------------------ *)
Definition exSS : arr2 f64 :=
  of_rows nnan (map (map f64_ofZ) [[0;1;4;5];[1;0;2;6];[4;2;0;3];[5;6;3;0]]%Z).

Example C119_case :
  exists r, snn_sample_jobs ref_argsort 4 (-1) exSS 2 "distance" [3; 1; 0; 2] (Some [2; 2; 0]) r.
Proof. exact (proj1 (C119_snn_sample_any_jobs_same_result ref_argsort 4 (-1) exSS 2 "distance" [3;1;0;2] (Some [2;2;0]))). Qed.
Example C119_case_ok :
  is_ok (snn_sample ref_argsort exSS 2 "distance" [3; 1; 0; 2] (Some [2; 2; 0])) = true.
Proof. vm_compute. reflexivity. Qed.
Example C120_case :
  (forall i x, i < 4 -> x < 4 -> x <> i -> nisfin (at2 exSS i x) = true) /\
  (forall i x y, i < 4 -> x < 4 -> y < 4 -> x <> i -> y <> i -> x <> y ->
     nlt (at2 exSS i x) (at2 exSS i y) = true \/ nlt (at2 exSS i y) (at2 exSS i x) = true) /\
  argsort_ok (ref_argsort (V:=f64)) /\ argpart_ok (ref_argpart (V:=f64)).
Proof.
  split; [|split; [|split; [exact (ref_argsort_ok f64_cmp)|exact (ref_argpart_ok f64_cmp)]]].
  - intros [|[|[|[|i]]]] [|[|[|[|x]]]] ? ? ?; try lia; reflexivity.
  - intros [|[|[|[|i]]]] [|[|[|[|x]]]] [|[|[|[|y]]]] ? ? ? ? ? ?; try lia;
      solve [left; reflexivity | right; reflexivity].
Qed.

Print Assumptions C119_snn_sample_any_jobs_same_result.
Print Assumptions C120_snn_sample_unit_and_rows.
Print Assumptions C120_full_sample_equals_shared_nearest_neighbors.
