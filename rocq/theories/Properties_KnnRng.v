(** Property C174: random numbers in [score] and [r_precision]
    (knn_classification.py:25-255, 455-644). *)
From Coq Require Import String.
From Coq Require Import ZArith List Arith Lia Bool Permutation.
From Verif Require Import Py Num Arr Sort Conc S_Neighbors M_IO M_GK M_SNN M_KNN M_MPEmpiric M_SparseKNN M_Start.
From Verif Require Import S_SparseKNN P_SparseKNN P_SparseKNN2 P_SparseKNN3 S_HubRng S_KnnRng M_KnnRng P_KnnRng Properties_HubRng.
Import ListNotations.
Local Open Scope nat_scope.

(** ** every call of score or r_precision, with the generator in any state and
    any distribution of the work, is one of the runs that C20-C24 and C100-C105
    are about: there the permutations are arbitrary *)
Theorem C174_score_refines :
  forall V (N : Num V) argsort G (perm : nat -> G -> list nat * G) (D : arr2 V) target ks metric test sample g,
    generator perm -> (forall t, test = Some t -> NoDup t) ->
    exists rp sh, (forall i l, Permutation (rp i l) l) /\ (forall i j l, Permutation (sh i j l) l) /\
      bind (score_rng perm argsort D target ks metric test sample g) (fun r => Ok (fst r)) =
      score argsort rp sh D target ks metric test sample.
Proof.
  intros V N argsort G perm D target ks metric test sample g HG ND.
  set (points := match test with None => seq 0 (nrow D) | Some t => t end).
  set (n := match test with None => nrow D | Some t => length t end).
  set (cl := unique_labels target). set (classes := map (class_index cl) target).
  set (vcl := match sample with None => classes | Some s => take 0 classes s end).
  set (cand := match sample, test with
                | Some s, _ => seq 0 (length s)
                | None, None => seq 0 n
                | None, Some t => filter (fun x => negb (existsb (Nat.eqb x) t)) (seq 0 n)
                end).
  destruct (points_ex perm HG argsort metric (match sample with None => false | Some _ => true end)
    (match sample with None => D | Some s => set_cells s (knn_self metric) D end) ks n (length cl) classes vcl cand points)
    with (st := map (fun _ : Z => kst0 (V:=V)) ks) (g := g) as (rp & sh & Hr & Hs & E).
  { unfold points. destruct test; [now apply ND|apply seq_NoDup]. }
  exists rp, sh. split; [exact Hr|]. split; [exact Hs|].
  unfold score_rng, score. fold points n cl classes vcl cand.
  repeat match goal with |- bind (bind ?x _) _ = bind ?x _ => destruct x; [cbn [bind]|reflexivity] end.
  f_equal. symmetry. exact E.
Qed.

Lemma r_precision_cong V (N : Num V) argpart rp sh vsum G (perm : nat -> G -> list nat * G) dense (S : smat V) target metric yp who g :
  (let cl := unique_labels (target ++ [int_min]) in
   let y := map (class_index cl) target in
   let rel := map (fun c => (Z.of_nat c - 1)%Z) (bincount y 0) in
   chunks_rng perm argpart S y rel yp (class_index cl int_min) who 0 (chunks_of (srow S)) (fun _ => g) =
   mapM (rprec_worker argpart rp sh S y rel yp (class_index cl int_min)) (seq 0 (srow S))) ->
  r_precision_rng perm argpart vsum dense S target metric yp who g =
  r_precision argpart rp sh vsum dense S target metric yp.
Proof.
  intros E. unfold r_precision_rng, r_precision.
  destruct (check_distance_matrix_shape _) as [u0|e0] eqn:C1; [|reflexivity]. cbn [bind].
  destruct (check_distance_matrix_shape_fits_labels _ _) as [u1|e1] eqn:C2; [|reflexivity]. cbn [bind].
  destruct (check_valid_metric_parameter metric) as [u2|e2]; [|reflexivity]. cbn [bind].
  destruct (guard (negb (is_sim metric) || dense) NotImplementedError) as [u3|e3]; [|reflexivity]. cbn [bind].
  rewrite E. reflexivity.
Qed.

Theorem C174_r_precision_refines :
  forall V (N : Num V) argpart vsum G (perm : nat -> G -> list nat * G) dense (S : smat V) target metric yp who g,
    generator perm ->
    exists rp sh, (forall i l, Permutation (rp i l) l) /\ (forall i j l, Permutation (sh i j l) l) /\
      r_precision_rng perm argpart vsum dense S target metric yp who g =
      r_precision argpart rp sh vsum dense S target metric yp.
Proof.
  intros V N argpart vsum G perm dense S target metric yp who g HG.
  set (cl := unique_labels (target ++ [int_min])). set (y := map (class_index cl) target).
  destruct (chunks_ex perm HG argpart S y (map (fun c => (Z.of_nat c - 1)%Z) (bincount y 0)) yp (class_index cl int_min) who (chunks_of (srow S)))
    with (c := 0) (wg := fun _ : nat => g) as (rp & sh & Hr & Hs & E).
  { rewrite chunks_concat. apply seq_NoDup. }
  rewrite chunks_concat in E.
  exists rp, sh. split; [exact Hr|]. split; [exact Hs|]. apply r_precision_cong. intros. symmetry. exact E.
Qed.

(** ** up to 100 objects: all in one chunk, hence all shuffled by one worker.  The
    result is a function of the arguments and of the state of the generator,
    whatever the number of workers and the schedule *)
Theorem C174_one_chunk :
  forall V (N : Num V) argpart vsum G (perm : nat -> G -> list nat * G) dense (S : smat V) target metric yp who who' g,
    srow S <= 100 ->
    r_precision_rng perm argpart vsum dense S target metric yp who g =
    r_precision_rng perm argpart vsum dense S target metric yp who' g.
Proof.
  intros V N argpart vsum G perm dense S target metric yp who who' g Hn. unfold r_precision_rng.
  assert (E : forall y rel inc, chunks_rng perm argpart S y rel yp inc who 0 (chunks_of (srow S)) (fun _ => g) =
                                chunks_rng perm argpart S y rel yp inc who' 0 (chunks_of (srow S)) (fun _ => g)).
  { intros y rel inc. assert (L : length (chunks_of (srow S)) <= 1).
    { unfold chunks_of. rewrite map_length, seq_length. assert ((srow S + 99) / 100 < 2) by (apply Nat.div_lt_upper_bound; lia). lia. }
    destruct (chunks_of (srow S)) as [|l [|l' cs]]; [reflexivity|reflexivity|cbn in L; lia]. }
  now rewrite E.
Qed.

(** ** DEFECT: with more than 100 objects every worker starts with the same
    permutations: the permutation of an object depends only on how many objects
    its worker had before *)
Lemma fin_notnan (v : f64) : nisfin v = true -> nisnan v = false.
Proof. now destruct v. Qed.

Lemma turns_eq (argpart : list f64 -> list nat -> list nat) (AP : argpart_ok argpart) G (perm : nat -> G -> list nat * G) (HG : generator perm)
    (S : smat f64) lab m yp who g rp sh : equal_degrees S lab m ->
  (forall i, i < length lab -> rp i (seq 0 m) = draw perm m (earlier who i) g) ->
  chunks_rng perm argpart S (enc lab) (erel lab) yp (class_index (ecl lab) int_min) who 0 (chunks_of (length lab)) (fun _ => g) =
  mapM (rprec_worker argpart rp sh S (enc lab) (erel lab) yp (class_index (ecl lab) int_min)) (seq 0 (length lab)).
Proof.
  intros [HR HC H2 Hd Hf Hmt] Hrp. rewrite <- chunks_concat. unfold chunks_of.
  apply (chunks_step f64_cmp perm HG argpart AP S lab yp m HC H2) with (g := g).
  - intros i Hi. split; [intros x Hx; destruct (Hf i x Hi Hx) as (A & B); split; [now apply fin_notnan|exact B]|].
    split; [now apply Hd|]. split; [intros x Hx; now apply Hf|now apply Hmt].
  - exact Hrp.
  - pose proof (Nat.mul_div_le (length lab + 99) 100 ltac:(lia)). lia.
  - intros w. reflexivity.
Qed.

Theorem C174_turns :
  forall argpart : list f64 -> list nat -> list nat, argpart_ok argpart ->
  forall vsum G (perm : nat -> G -> list nat * G), generator perm ->
  forall (S : smat f64) lab m yp who g, equal_degrees S lab m ->
  forall rp sh, (forall i, i < length lab -> rp i (seq 0 m) = draw perm m (earlier who i) g) ->
    r_precision_rng perm argpart vsum false S lab "similarity" yp who g =
    r_precision argpart rp sh vsum false S lab "similarity" yp.
Proof.
  intros argpart AP vsum G perm HG S lab m yp who g HE rp sh Hrp. apply r_precision_cong. cbv zeta.
  rewrite (ed_rows _ _ _ HE). now apply (turns_eq argpart AP G perm HG S lab m yp who g rp sh HE).
Qed.

(** so two objects with the same label and the same stored similarities get the
    same precision and the same neighbour labels, ties included, if their workers
    had equally many objects before *)
Theorem C174_alike :
  forall argpart : list f64 -> list nat -> list nat, argpart_ok argpart ->
  forall vsum G (perm : nat -> G -> list nat * G), generator perm ->
  forall (S : smat f64) lab m yp who g out i j, equal_degrees S lab m ->
    r_precision_rng perm argpart vsum false S lab "similarity" yp who g = Ok out ->
    i < length lab -> j < length lab -> nth i lab 0%Z = nth j lab 0%Z ->
    (forall x, stored S i x = stored S j x) -> earlier who i = earlier who j ->
    nth i (rp_item out) n0 = nth j (rp_item out) n0 /\ nth i (rp_pred out) [] = nth j (rp_pred out) [].
Proof.
  intros argpart AP vsum G perm HG S lab m yp who g out i j HE H Hi Hj Hl Hs He.
  set (rp := fun (i : nat) (l : list nat) => draw perm m (earlier who i) g). set (sh := fun (_ _ : nat) (l : list nat) => l).
  rewrite (C174_turns argpart AP vsum G perm HG S lab m yp who g HE rp sh) in H by reflexivity.
  unfold r_precision in H.
  apply bind_ok_inv in H as ([] & _ & H). apply bind_ok_inv in H as ([] & _ & H). apply bind_ok_inv in H as ([] & _ & H).
  apply bind_ok_inv in H as ([] & _ & H). apply bind_ok_inv in H as (rs & Hrs & H). apply bind_ok_inv in H as ([] & _ & H).
  injection H as <-. cbn [rp_item rp_pred]. rewrite (ed_rows _ _ _ HE) in Hrs.
  assert (E : nth i rs (n0, []) = nth j rs (n0, [])).
  { pose proof (mapM_nth _ _ _ i 0 (n0, []) Hrs) as Ei. pose proof (mapM_nth _ _ _ j 0 (n0, []) Hrs) as Ej.
    rewrite seq_length, seq_nth in Ei, Ej by assumption. specialize (Ei Hi). specialize (Ej Hj). cbn [Nat.add] in Ei, Ej.
    match type of Ei with ?f _ = _ => assert (X : f i = f j) end.
    { assert (Y : forall k, k < length lab -> nth k (map (class_index (unique_labels (lab ++ [int_min]))) lab) 0 =
                     class_index (unique_labels (lab ++ [int_min])) (nth k lab 0%Z)).
      { intros k Hk. rewrite (nth_indep _ 0 (class_index (unique_labels (lab ++ [int_min])) 0%Z)) by (now rewrite map_length). apply map_nth. }
      unfold rprec_worker. rewrite (Y i Hi), (Y j Hj), Hl.
      assert (Sv : forall x, sval S i x = sval S j x) by (intros x; unfold sval; now rewrite Hs).
      assert (Sc : sp_cols S i = sp_cols S j) by (apply filter_ext; intros x; unfold is_stored; now rewrite Hs).
      assert (Sz : sp_nz S i = sp_nz S j) by (unfold sp_nz; rewrite Sc; apply filter_ext; intros x; now rewrite Sv).
      assert (Sd : sp_data S i = sp_data S j) by (unfold sp_data; rewrite Sc; apply map_ext; exact Sv).
      unfold sp_ranked, rp, sh. rewrite Sc, Sz, Sd, He.
      destruct (Z.eqb _ 0); [reflexivity|].
      match goal with |- bind ?a _ = bind ?a _ => destruct a as [l|e]; [|reflexivity] end. cbn [bind].
      assert (Fe : forall l0, match filter (fun x => nisfin (sval S i x)) l0 with [] => l0 | _ :: _ => l0 end =
                   match filter (fun x => nisfin (sval S j x)) l0 with [] => l0 | _ :: _ => l0 end) by (intros l0; destruct (filter _ l0), (filter _ l0); reflexivity).
      now rewrite Fe. }
    rewrite X in Ei. rewrite Ei in Ej. injection Ej as Ej. exact Ej. }
  assert (Lr : length rs = length lab) by (rewrite (mapM_length _ _ _ Hrs); apply seq_length).
  assert (NM : forall B (f : f64 * list nat -> B) d k, k < length lab -> nth k (map f rs) d = f (nth k rs (n0, []))).
  { intros B f d k Hk. rewrite (nth_indep _ d (f (n0, []))) by (rewrite map_length; lia). apply map_nth. }
  split; rewrite !NM by assumption; now rewrite E.
Qed.

(** ** the schedule matters: 101 objects, two workers; the last object has two
    equally similar neighbours, one of its class and one of another *)
Definition late_perm (m : nat) (t : nat) : list nat * nat := ((if t <? 50 then seq 0 m else rev (seq 0 m)), 1 + t).
Lemma late_generator : generator late_perm.
Proof. intros m g. unfold late_perm. destruct (g <? 50); cbn [fst]; [apply Permutation_refl|apply Permutation_sym, Permutation_rev]. Qed.

Definition tied : smat f64 := SMat 101 101 (fun i j =>
  if j =? i then Some (@nofnat f64 _ 2) else
  if j =? 0 then Some (@n1 f64 _) else if j =? 99 then Some (@n1 f64 _) else
  if (j =? 1) && ((i =? 0) || (i =? 99)) then Some (@n1 f64 _) else None).
Definition two_last : list Z := repeat 0%Z 99 ++ [1; 1]%Z.
Definition first_sum (l : list f64) : f64 := hd n0 l.

Theorem C174_schedule_matters :
  exists out out',
    r_precision_rng late_perm ref_argpart first_sum false tied two_last "similarity" 0 (fun _ => 0) 0 = Ok out /\
    r_precision_rng late_perm ref_argpart first_sum false tied two_last "similarity" 0 (fun c => c) 0 = Ok out' /\
    nlt (nth 100 (rp_item out) nnan) (nth 100 (rp_item out') nnan) = true.
Proof.
  assert (E : match r_precision_rng late_perm ref_argpart first_sum false tied two_last "similarity" 0 (fun _ => 0) 0,
                    r_precision_rng late_perm ref_argpart first_sum false tied two_last "similarity" 0 (fun c => c) 0 with
              | Ok a, Ok b => nlt (nth 100 (rp_item a) nnan) (nth 100 (rp_item b) nnan) | _, _ => false end = true) by (vm_compute; reflexivity).
  destruct (r_precision_rng _ _ _ _ _ _ _ _ (fun _ => 0) 0) as [a|]; [|discriminate].
  destruct (r_precision_rng _ _ _ _ _ _ _ _ (fun c => c) 0) as [b|]; [|discriminate].
  exists a, b. now repeat split.
Qed.

(** ** The hypotheses can be met: the example has equal degrees; objects 3 and 103
    of two workers are at the same turn, object 215 of two workers that alternate
    is the 116th of its worker *)
Example C174_case :
  equal_degrees tied two_last 3 /\ generator late_perm /\
  earlier (fun c => c) 3 = earlier (fun c => c) 103 /\ earlier (fun c => c mod 2) 215 = 115.
Proof.
  split; [|split; [apply late_generator|split; reflexivity]]. constructor; try reflexivity; [lia| | |].
  - assert (E : forallb (fun i => length (filter (is_stored tied i) (seq 0 101)) =? 3) (seq 0 101) = true) by (vm_compute; reflexivity).
    intros i Hi. rewrite forallb_forall in E. apply Nat.eqb_eq, E, in_seq. cbn in Hi |- *. lia.
  - intros i x Hi (Hx & v & E). unfold sval. rewrite E. cbn [oval].
    assert (C : v = @nofnat f64 _ 2 \/ v = @n1 f64 _).
    { unfold tied in E. cbn [stored] in E. destruct (x =? i); [left; congruence|]. destruct (x =? 0); [right; congruence|].
      destruct (x =? 99); [right; congruence|]. destruct (_ && _); [right; congruence|discriminate]. }
    destruct C as [-> | ->]; split; reflexivity.
  - assert (E : forallb (fun i => negb (relevant two_last i =? 0)) (seq 0 101) = true) by (vm_compute; reflexivity).
    intros i Hi. rewrite forallb_forall in E. specialize (E i). apply Nat.eqb_neq, negb_true_iff, E, in_seq. cbn in Hi |- *. lia.
Qed.

Print Assumptions C174_score_refines.
Print Assumptions C174_r_precision_refines.
Print Assumptions C174_one_chunk.
Print Assumptions C174_turns.
Print Assumptions C174_alike.
Print Assumptions C174_schedule_matters.
