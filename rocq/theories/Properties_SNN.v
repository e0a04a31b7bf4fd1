(** Properties C14-C16 (SNN part): shared_neighbors.py:29-295, float64. *)
From Coq Require Import String.
From Coq Require Import ZArith List Arith Lia Bool Permutation.
From Verif Require Import Py Num Arr Sort Conc S_Neighbors S_SNN M_IO M_SNN.
From Verif Require Import P_Neighbors P_F64 P_Hubness P_MPEmpiric2 P_SNN.
Import ListNotations.
Local Open Scope nat_scope.

(** ** C14.  [hood i] is a set of exactly k nearest objects of i, the object
    itself ranked last. *)
Theorem C14_snn_formula :
  forall (argpart : list f64 -> list nat -> list nat), argpart_ok argpart ->
  forall metric (D : arr2 f64) k,
    valid_metric metric = true -> nrow D = ncol D -> 0 < k -> (Z.of_nat k <= 2 ^ 53)%Z ->
    k < nrow D \/ (k = nrow D /\ metric = "similarity"%string) ->
    exists M (hood : nat -> list nat),
      snn_serial argpart D (Z.of_nat k) metric = Ok M /\
      nrow M = nrow D /\ ncol M = nrow D /\
      (forall i, i < nrow D ->
         kset (fun x y => nearer metric (rank_value metric D i x) (rank_value metric D i y))
              (nrow D) k (hood i) /\
         ((forall x, x < nrow D -> x <> i -> nisfin (at2 D i x) = true) ->
          k < nrow D -> ~ In i (hood i))) /\
      (forall i, i < nrow D -> at2 M i i = if is_sim metric then n1 else n0) /\
      (forall i j, i < nrow D -> j < nrow D -> i <> j ->
         (metric = "distance"%string ->
          at2 M i j = nsub n1 (ndiv (nofnat (overlap (hood i) (hood j))) (nofnat k))) /\
         (metric = "similarity"%string ->
          at2 M i j = ndiv (nofnat (overlap (hood i) (hood j))) (nofnat k)) /\
         at2 M j i = at2 M i j /\
         nle n0 (at2 M i j) = true /\ nle (at2 M i j) n1 = true).
Proof.
  intros argpart AP metric D k Hv Hsq Hk0 Hb Hk.
  destruct (snn_formula argpart AP metric D k Hv Hsq Hk0 Hb Hk) as (M & hood & HM & R & C & K & Dg & A).
  exists M, hood. split; [exact HM|]. split; [exact R|]. split; [exact C|]. split.
  { intros i Hi. split; [now apply K|]. intros Hf Hkn.
    eapply (kset_no_self f64_cmp); eauto. }
  split; [exact Dg|]. intros i j Hi Hj Hne. destruct (A i j Hi Hj Hne) as (E & S & B).
  split; [intros ->; exact E|]. split; [intros ->; exact E|]. auto.
Qed.

(** k out of range is refused *)
Theorem C14_k_out_of_range_raises :
  forall (argpart : list f64 -> list nat -> list nat) (D : arr2 f64) k,
    nrow D = ncol D -> 0 < nrow D ->
    (nrow D <= k -> snn_serial argpart D (Z.of_nat k) "distance" = Raise ValueError) /\
    (k = 0 \/ 2 * nrow D < k -> snn_serial argpart D (Z.of_nat k) "similarity" = Raise ValueError).
Proof.
  intros argpart D k Hsq Hn. unfold snn_serial.
  destruct D as [n m a]. cbn [nrow ncol] in *. subst m. rewrite check_square by reflexivity.
  destruct n as [|n]; [lia|]. cbn [bind]. split; intros Hk.
  - change (check_valid_metric_parameter "distance") with (Ok tt). cbn [bind seq mapM].
    unfold snn_hood at 1, np_argpartition. rewrite rowl_length. cbn [ncol nrow fill_diagonal].
    change (snn_kth "distance" (S n) (Z.of_nat k)) with (Z.of_nat k).
    replace (kth_legal (S n) [Z.of_nat k]) with false; [reflexivity|].
    symmetry. destruct (kth_legal (S n) [Z.of_nat k]) eqn:E; [|reflexivity].
    rewrite kth_legal_spec in E. specialize (E _ (or_introl eq_refl)). lia.
  - change (check_valid_metric_parameter "similarity") with (Ok tt). cbn [bind seq mapM].
    unfold snn_hood at 1, np_argpartition. rewrite rowl_length. cbn [ncol nrow fill_diagonal].
    change (snn_kth "similarity" (S n) (Z.of_nat k)) with (Z.of_nat (S n) - Z.of_nat k)%Z.
    replace (kth_legal (S n) [(Z.of_nat (S n) - Z.of_nat k)%Z]) with false; [reflexivity|].
    symmetry. destruct (kth_legal (S n) _) eqn:E; [|reflexivity].
    rewrite kth_legal_spec in E. specialize (E _ (or_introl eq_refl)). lia.
Qed.

(** ** C15: every outcome of the two worker pools is the serial outcome *)
Theorem C15_snn_parallel_equals_serial :
  forall (argpart : list f64 -> list nat -> list nat) (D : arr2 f64) (k : Z) metric,
    (exists r, snn_parallel argpart D k metric r) /\
    forall r, snn_parallel argpart D k metric r ->
      match r, snn_serial argpart D k metric with
      | Ok M, Ok M' => eq2 M M'
      | Raise e, Raise e' => e = e'
      | _, _ => False
      end.
Proof.
  intros. split; [apply snn_parallel_exists|]. intros r. apply snn_parallel_serial.
Qed.

(** ** C16 for snn_sample: with test_ind=None the self value is written on the
    geometric diagonal, with test_ind given at the true self cells. *)
Theorem C16_snn_sample_self_cells :
  forall (argsort : list f64 -> list nat), argsort_ok argsort ->
  forall (D : arr2 f64) k metric train,
    ncol D <= nrow D -> length train = ncol D -> valid_metric metric = true ->
    (forall s, In s train -> s < nrow D) -> k <= ncol D ->
    exists M M' (hood : nat -> list nat),
      snn_sample argsort D (Z.of_nat k) metric train None = Ok M /\
      snn_sample argsort D (Z.of_nat k) metric train (Some (seq 0 (nrow D))) = Ok M' /\
      nrow M = nrow D /\ ncol M = ncol D /\ nrow M' = nrow D /\ ncol M' = ncol D /\
      (forall i, i < nrow D ->
         kset (fun x y => nearer metric (rank_value_s metric D train i x)
                                        (rank_value_s metric D train i y)) (ncol D) k (hood i)) /\
      forall i j, i < nrow D -> j < ncol D ->
        let shared := overlap (hood i) (hood (nth j train 0)) in
        let value := if is_sim metric then ndiv (nofnat shared) (nofnat k)
                     else nsub n1 (ndiv (nofnat shared) (nofnat k)) in
        at2 M i j = (if i =? j then if is_sim metric then n1 else n0 else value) /\
        at2 M' i j = (if nth j train 0 =? i then if is_sim metric then n1 else n0 else value).
Proof.
  intros argsort AS D k metric train Hn Hl Hv Ht Hk.
  destruct (snn_sample_spec f64_cmp argsort AS D k metric train None Hn Hl Hv Ht I Hk)
    as (M & h & HM & Eh & Kh & R & C & A).
  destruct (snn_sample_spec f64_cmp argsort AS D k metric train (Some (seq 0 (nrow D))) Hn Hl Hv Ht)
    as (M' & h' & HM' & Eh' & _ & R' & C' & A').
  { intros s Hs. apply in_seq in Hs. lia. } { assumption. }
  exists M, M', h.
  split; [exact HM|]. split; [exact HM'|]. split; [exact R|]. split; [exact C|].
  rewrite seq_length in R'. split; [exact R'|]. split; [exact C'|]. split; [exact Kh|].
  intros i j Hi Hj. cbv zeta. split.
  - rewrite A by (lia || assumption). reflexivity.
  - rewrite A' by (lia || assumption). rewrite seq_nth by assumption. simpl (0 + i).
    rewrite !Eh, !Eh'. reflexivity.
Qed.

Definition exSD : arr2 f64 := of_rows nnan (map (map f64_ofZ) [[1;5];[0;4];[4;0]]%Z).

(** a training set that is not an initial segment gets a wrong self value *)
Theorem C16_snn_sample_witness :
  exists (D : arr2 f64) train M M',
    train = [1; 2] /\
    snn_sample ref_argsort D 1 "distance" train None = Ok M /\
    snn_sample ref_argsort D 1 "distance" train (Some [0; 1; 2]) = Ok M' /\
    neq (at2 M 1 1) n0 = true /\ neq (at2 M' 1 1) n1 = true.
Proof.
  exists exSD, [1; 2].
  destruct (snn_sample ref_argsort exSD 1 "distance" [1; 2] None) as [M|] eqn:E; [|discriminate].
  destruct (snn_sample ref_argsort exSD 1 "distance" [1; 2] (Some [0; 1; 2])) as [M'|] eqn:E'; [|discriminate].
  exists M, M'. injection E as <-. injection E' as <-. repeat split; vm_compute; reflexivity.
Qed.

(* ------------------------------------------------------------------ *)
Definition exS4 : arr2 f64 :=
  of_rows nnan (map (map f64_ofZ) [[0;1;4;5];[1;0;2;6];[4;2;0;3];[5;6;3;0]]%Z).

Example ex_snn_run :
  match snn_serial ref_argpart exS4 2 "distance" with
  | Ok M => map (fun ij => (neq (at2 M (fst ij) (snd ij)) n0,
                            neq (at2 M (fst ij) (snd ij)) n1,
                            neq (nadd (at2 M (fst ij) (snd ij)) (at2 M (fst ij) (snd ij))) n1))
                [(0,0);(0,1);(0,2);(0,3);(2,0)]
  | Raise _ => [] end
  = [(true,false,false); (false,false,true); (false,false,true); (false,false,true); (false,false,true)].
Proof. vm_compute. reflexivity. Qed.
Example ex_snn_hyp : forall i x, i < 4 -> x < 4 -> x <> i -> nisfin (at2 exS4 i x) = true.
Proof. intros [|[|[|[|i]]]] [|[|[|[|x]]]] ? ? ?; try lia; reflexivity. Qed.
Example ex_argsort_ok : argsort_ok (ref_argsort (V:=f64)).
Proof. exact (ref_argsort_ok f64_cmp). Qed.

Print Assumptions C14_snn_formula.
Print Assumptions C14_k_out_of_range_raises.
Print Assumptions C15_snn_parallel_equals_serial.
Print Assumptions C16_snn_sample_self_cells.
Print Assumptions C16_snn_sample_witness.
