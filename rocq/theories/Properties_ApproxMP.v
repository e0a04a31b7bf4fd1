(** Property C68: approximate mutual proximity with fixed vantage points
    (sampling None, 'random' or 'kmeans++'), over float32 data.  The distance of
    two rows is any function [sdist] of the metric and the two rows. *)
From Coq Require Import String.
From Coq Require Import ZArith List Arith Lia Bool Permutation Reals Lra.
From Verif Require Import Py Num NumT NumF32 Arr Sort Conc S_Neighbors S_MP S_Approx M_MPEmpiric M_Approx.
From Verif Require Import P_F64 P_F32 P_MPEmpiric P_ApproxFixed.
Import ListNotations.
Local Open Scope nat_scope.

(** Every entry is (the float32 nearest to) one minus the fraction of vantage points that are farther
    from the query and from the vantage point than these are from each other;
    the divisor is n_samples with sampling, the number of objects without. *)
Theorem C68_value :
  forall (sdist : string -> nat -> (nat -> f32) -> (nat -> f32) -> f32) metric s ns n_jobs (Xall X R : arr2 f32),
    mp_fixed sdist f32_of metric s ns n_jobs Xall X (Ok R) ->
    let v := vantage s (nrow Xall) in
    let dx i l := sdist metric (ncol X) (at2 X i) (at2 Xall (nth l v 0)) in
    let dv j l := sdist metric (ncol Xall) (at2 Xall (nth j v 0)) (at2 Xall (nth l v 0)) in
    nrow R = nrow X /\ ncol R = length v /\
    forall i j, i < nrow X -> j < length v ->
      at2 R i j = f32_of (nsub n1 (ndiv (nofnat (farther_vantage (dx i) (dv j) (length v) j))
                                        (nofnat (if sampled s then ns else nrow Xall)))).
Proof.
  intros sdist metric s ns nj Xall X R H v dx dv. inversion H as [|r H1 H2]; subst.
  destruct (transform_mp_at f32_cmp sdist f32_of _ _ _ _ _ _ H2) as (A & B & C). cbn [nrow rows_at] in *.
  split; [exact A|]. split; [exact B|]. intros i j Hi Hj. rewrite (C i j Hi Hj). reflexivity.
Qed.

(** The result exists for every worker count and is the same for all of them
    and all schedules; failures are ValueErrors and happen exactly when the
    metric is unknown, data are empty or not finite, the numbers of features
    differ, or random sampling is asked for all objects or more. *)
Theorem C68_total :
  forall (sdist : string -> nat -> (nat -> f32) -> (nat -> f32) -> f32) metric s ns n_jobs (Xall X : arr2 f32),
    exists r, mp_fixed sdist f32_of metric s ns n_jobs Xall X r.
Proof.
  intros. destruct ((fit_check Xall ;; sampling_check s (nrow Xall) ns)%py) as [[]|e] eqn:E.
  - edestruct (transform_mp_ex sdist f32_of metric (if sampled s then ns else nrow Xall) n_jobs (rows_at Xall (vantage s (nrow Xall))) X) as (r & Hr).
    exists r. apply mf_run; [exact E|exact Hr].
  - exists (Raise e). apply mf_fail. exact E.
Qed.
Theorem C68_outcome :
  forall (sdist : string -> nat -> (nat -> f32) -> (nat -> f32) -> f32) metric s ns n_jobs (Xall X : arr2 f32) r,
    mp_fixed sdist f32_of metric s ns n_jobs Xall X r ->
    match r with
    | Ok _ => (metric = "sqeuclidean" \/ metric = "cosine")%string /\ clean Xall /\ clean X /\ ncol X = ncol Xall /\
              (forall ind, s = SRandom ind -> ns < nrow Xall)
    | Raise e => e = ValueError /\
        ~ ((metric = "sqeuclidean" \/ metric = "cosine")%string /\ clean Xall /\ clean X /\ ncol X = ncol Xall /\
           (forall ind, s = SRandom ind -> ns < nrow Xall))
    end.
Proof.
  intros sdist metric s ns nj Xall X r H.
  assert (KM : known_metric metric = true <-> (metric = "sqeuclidean" \/ metric = "cosine")%string).
  { unfold known_metric. rewrite orb_true_iff, !String.eqb_eq. tauto. }
  assert (SF : sampling_fits s (nrow Xall) ns <-> (forall ind, s = SRandom ind -> ns < nrow Xall)).
  { destruct s as [|l|l]; cbn; split; intros Hx; try exact I; try (intros ? ?; congruence); exact (Hx l eq_refl). }
  inversion H as [e H1|r' H1 H2]; subst.
  - split; [exact (fit_exc _ _ _ _ H1)|]. intros (_ & A & _ & _ & B). apply SF in B.
    assert (E := proj2 (fit_ok_iff Xall s ns) (conj A B)). congruence.
  - apply fit_ok_iff in H1 as (A & B). inversion H2 as [C|e C D|C D E|buf C D E F]; subst.
    + split; [reflexivity|]. intros (M & _). apply KM in M. congruence.
    + split; [exact (trans_check_exc _ _ _ D)|]. intros (_ & _ & M1 & M2 & _).
      assert (E := proj2 (trans_check_iff X (rows_at Xall (vantage s (nrow Xall)))) (conj M1 M2)). congruence.
    + apply trans_check_iff in D. apply KM in C. pose proof (proj1 SF B). cbn [ncol rows_at] in D. tauto.
    + apply trans_check_iff in D. apply KM in C. pose proof (proj1 SF B). cbn [ncol rows_at] in D. tauto.
Qed.
Theorem C68_jobs :
  forall (sdist : string -> nat -> (nat -> f32) -> (nat -> f32) -> f32) metric s ns n_jobs n_jobs' (Xall X : arr2 f32) r r',
    mp_fixed sdist f32_of metric s ns n_jobs Xall X r -> mp_fixed sdist f32_of metric s ns n_jobs' Xall X r' ->
    match r, r' with
    | Ok R, Ok R' => nrow R = nrow R' /\ ncol R = ncol R' /\
        forall i j, i < nrow R -> j < ncol R -> at2 R i j = at2 R' i j
    | Raise e, Raise e' => e = e'
    | _, _ => False
    end.
Proof.
  intros sdist metric s ns nj nj' Xall X r r' H H'.
  pose proof (C68_outcome _ _ _ _ _ _ _ _ H) as O. pose proof (C68_outcome _ _ _ _ _ _ _ _ H') as O'.
  destruct r as [R|e], r' as [R'|e']; try tauto.
  - destruct (C68_value _ _ _ _ _ _ _ _ H) as (A & B & C). destruct (C68_value _ _ _ _ _ _ _ _ H') as (A' & B' & C').
    split; [congruence|]. split; [congruence|]. intros i j Hi Hj. rewrite C, C' by congruence. reflexivity.
  - destruct O as (-> & _), O' as (-> & _). reflexivity.
Qed.

(** Values lie in (0, 1] when there are as many vantage points as the divisor
    says (at most 2^53). *)
Theorem C68_range :
  forall (sdist : string -> nat -> (nat -> f32) -> (nat -> f32) -> f32) metric s ns n_jobs (Xall X R : arr2 f32) i j,
    mp_fixed sdist f32_of metric s ns n_jobs Xall X (Ok R) ->
    (sampled s = true -> length (vantage s (nrow Xall)) = ns) ->
    (Z.of_nat (length (vantage s (nrow Xall))) <= 2 ^ 53)%Z ->
    i < nrow R -> j < ncol R ->
    nlt n0 (at2 R i j) = true /\ nle (at2 R i j) n1 = true.
Proof.
  intros sdist metric s ns nj Xall X R i j H Hs Hb Hi Hj.
  destruct (C68_value _ _ _ _ _ _ _ _ H) as (A & B & C). rewrite A in Hi. rewrite B in Hj. rewrite (C i j Hi Hj).
  set (v := vantage s (nrow Xall)) in *.
  assert (E : (if sampled s then ns else nrow Xall) = length v).
  { destruct (sampled s) eqn:Es; [now rewrite Hs|]. unfold v. destruct s; try discriminate. cbn. now rewrite seq_length. }
  rewrite E. set (c := farther_vantage _ _ _ _).
  assert (Hc : c < length v).
  { unfold c, farther_vantage. rewrite <- count_if_filter.
    apply Nat.le_lt_trans with (count_if (fun l => negb (l =? j)) (length v)).
    - apply count_if_mono. intros l _ Hl. now apply andb_true_iff in Hl as (Hl & _).
    - pose proof (count_if_neg (fun l => l =? j) (length v)) as G. rewrite (count_if_eq1 _ j Hj) in G. lia. }
  now apply f32_of_compl_frac.
Qed.

(** Without sampling, transforming the training data gives the exact empiric
    mutual proximity, rounded to float32, off the diagonal: for any symmetric
    matrix D with no self distance above another distance that orders pairs as
    the distances do. *)
Theorem C68_equals_exact_mp :
  forall (sdist : string -> nat -> (nat -> f32) -> (nat -> f32) -> f32) metric ns n_jobs (X R : arr2 f32) (D E : arr2 f64) i j,
    mp_fixed sdist f32_of metric SNone ns n_jobs X X (Ok R) ->
    nrow D = nrow X -> ncol D = nrow X ->
    (forall a b c d, a < nrow X -> b < nrow X -> c < nrow X -> d < nrow X -> nlt (at2 D a b) (at2 D c d) =
       nlt (sdist metric (ncol X) (at2 X a) (at2 X b)) (sdist metric (ncol X) (at2 X c) (at2 X d))) ->
    (forall a b, a < nrow X -> b < nrow X -> at2 D a b = at2 D b a) ->
    (forall a b, a < nrow X -> b < nrow X -> nlt (at2 D a b) (at2 D a a) = false) ->
    mp_empiric_full D "distance" TNone = Ok E ->
    (Z.of_nat (nrow X) <= 2 ^ 53)%Z -> i < nrow X -> j < nrow X -> i <> j ->
    at2 R i j = f32_of (at2 E i j).
Proof.
  intros sdist metric ns nj X R D E i j H Hr Hc HD Hsym Hself HE Hb Hi Hj Hne.
  destruct (C68_value _ _ _ _ _ _ _ _ H) as (_ & _ & C). cbn [vantage sampled] in C. rewrite seq_length in C. rewrite (C i j Hi Hj). clear C.
  assert (HE' : E = mp_full_core "distance" D).
  { unfold mp_empiric_full in HE. rewrite Hr, Hc in HE. cbn [test_ind_rejected guard] in HE.
    destruct (M_IO.check_distance_matrix_shape _); [|discriminate]. cbn [bind] in HE.
    destruct (M_IO.check_valid_metric_parameter _); [|discriminate]. cbn [bind] in HE. congruence. }
  rewrite HE', mp_full_at by lia. destruct (Nat.eqb_spec i j); [lia|].
  assert (G : forall a b, a < nrow X -> b < nrow X -> a <> b ->
            farther_from_both D (nrow D) a b (at2 D b a) =
            farther_vantage (fun l => sdist metric (ncol X) (at2 X i) (at2 X (nth l (seq 0 (nrow X)) 0)))
              (fun l => sdist metric (ncol X) (at2 X (nth j (seq 0 (nrow X)) 0)) (at2 X (nth l (seq 0 (nrow X)) 0))) (nrow X) j \/ ~ (a = i /\ b = j \/ a = j /\ b = i)).
  { intros a b Ha Hb' Hab. destruct (Nat.eq_dec a i) as [->|Na].
    - destruct (Nat.eq_dec b j) as [->|Nb]; [|right; lia]. left. unfold farther_from_both, farther_vantage. rewrite count_if_filter, Hr.
      f_equal. apply filter_ext_in. intros l Hl. apply in_seq in Hl. rewrite !seq_nth by lia. cbn [Nat.add].
      rewrite <- !HD by lia. rewrite (Hsym j i) by lia.
      destruct (Nat.eqb_spec l i) as [->|Nl]; cbn [negb andb]; [|reflexivity].
      destruct (i =? j); cbn [negb andb]; [reflexivity|]. rewrite (Hself i j) by lia. reflexivity.
    - destruct (Nat.eq_dec a j) as [->|Na']; [|right; lia]. destruct (Nat.eq_dec b i) as [->|Nb]; [|right; lia]. left.
      unfold farther_from_both, farther_vantage. rewrite count_if_filter, Hr.
      f_equal. apply filter_ext_in. intros l Hl. apply in_seq in Hl. rewrite !seq_nth by lia. cbn [Nat.add].
      rewrite <- !HD by lia.
      destruct (Nat.eqb_spec l i) as [->|Nl]; cbn [negb andb].
      + rewrite (Hself i j) by lia. destruct (i =? j); reflexivity.
      + destruct (l =? j); cbn [negb andb]; [reflexivity|]. apply andb_comm. }
  assert (U : forall c, c <= nrow X -> is_unit (nsub n1 (ndiv (V:=f64) (nofnat c) (nofnat (nrow X))))).
  { intros c Hc'. apply compl_correct. apply frac_unit; lia. }
  assert (B : forall a b, farther_from_both D (nrow D) a b (at2 D b a) <= nrow X).
  { intros a b. unfold farther_from_both. rewrite Hr. apply count_if_le. }
  destruct (Nat.ltb_spec i j) as [L|L]; rewrite (mp_pair_dist f64_cmp) by lia.
  - rewrite ?Hr. destruct (G i j) as [G'|G']; [lia|lia|lia| |tauto]. specialize (B i j). rewrite Hr in B, G'.
    rewrite (proj1 (unit_add0 _ (U _ B))), G'. reflexivity.
  - rewrite ?Hr. destruct (G j i) as [G'|G']; [lia|lia|lia| |tauto]. specialize (B j i). rewrite Hr in B, G'.
    rewrite (proj2 (unit_add0 _ (U _ B))), G'. reflexivity.
Qed.

(** Three objects on a line at 0, 1, 3; all are vantage points; from 0 to 1
    (distance 1) only the third is farther from both: 1 - 1/3.  With a random
    sample of the two objects 2, 0 the divisor is 2. *)
Example ex_C68 :
  let X := Arr2 3 1 (fun i _ => match i with 0 => n0 | 1 => n1 | _ => nofZ 3 end) in
  let sd (_ : string) (_ : nat) (u w : nat -> f32) := nmul (nsub (u 0) (w 0)) (nsub (u 0) (w 0)) in
  exists R R', mp_fixed sd f32_of "sqeuclidean" SNone 0 1 X X (Ok R) /\
    neq (at2 R 0 1) (f32_of (nsub n1 (ndiv n1 (nofZ 3)))) = true /\
    mp_fixed sd f32_of "sqeuclidean" (SRandom [2; 0]) 2 4 X X (Ok R') /\
    neq (at2 R' 1 1) (ndiv n1 (nofZ 2)) = true.
Proof.
  intros X sd. eexists. eexists. split; [|split; [|split]].
  - apply mf_run; [vm_compute; reflexivity|]. apply tm_serial; vm_compute; reflexivity.
  - vm_compute. reflexivity.
  - apply mf_run; [vm_compute; reflexivity|]. eapply tm_pool; [vm_compute; reflexivity|vm_compute; reflexivity|discriminate|]. apply pool_run_exists.
  - vm_compute. reflexivity.
Qed.
Example ex_C68_exact :
  let X : arr2 f32 := Arr2 3 1 (fun i _ => match i with 0 => n0 | 1 => n1 | _ => nofZ 3 end) in
  let sd {V} {N : Num V} (_ : string) (_ : nat) (u w : nat -> V) :=
    if nlt (u 0) (w 0) then nsub (w 0) (u 0) else if nlt (w 0) (u 0) then nsub (u 0) (w 0) else n0 in
  let D : arr2 f64 := Arr2 3 3 (fun a b => match a, b with 0, 1 | 1, 0 => n1 | 0, 2 | 2, 0 => nofZ 3 | 1, 2 | 2, 1 => nofZ 2 | _, _ => n0 end) in
  (exists R E, mp_fixed (sd (V:=f32)) f32_of "cosine" SNone 0 1 X X (Ok R) /\ mp_empiric_full D "distance" TNone = Ok E) /\
  (forall a b, a < 3 -> b < 3 -> at2 D a b = at2 D b a) /\
  (forall a b, a < 3 -> b < 3 -> nlt (at2 D a b) (at2 D a a) = false) /\
  forallb (fun a => forallb (fun b => forallb (fun c => forallb (fun d => Bool.eqb (nlt (at2 D a b) (at2 D c d))
    (nlt (sd "cosine"%string 1 (at2 X a) (at2 X b)) (sd "cosine"%string 1 (at2 X c) (at2 X d)))) (seq 0 3)) (seq 0 3)) (seq 0 3)) (seq 0 3) = true.
Proof.
  intros X sd D. split; [|split; [|split]].
  - eexists. eexists. split; [apply mf_run; [vm_compute; reflexivity|]; apply tm_serial; vm_compute; reflexivity|unfold mp_empiric_full; reflexivity].
  - intros a b Ha Hb. destruct a as [|[|[|a]]]; [| | |exfalso; clear -Ha; lia];
      (destruct b as [|[|[|b]]]; [| | |exfalso; clear -Hb; lia]); reflexivity.
  - intros a b Ha Hb. destruct a as [|[|[|a]]]; [| | |exfalso; clear -Ha; lia];
      (destruct b as [|[|[|b]]]; [| | |exfalso; clear -Hb; lia]); vm_compute; reflexivity.
  - vm_compute. reflexivity.
Qed.

Print Assumptions C68_value.
Print Assumptions C68_total.
Print Assumptions C68_outcome.
Print Assumptions C68_jobs.
Print Assumptions C68_range.
Print Assumptions C68_equals_exact_mp.
