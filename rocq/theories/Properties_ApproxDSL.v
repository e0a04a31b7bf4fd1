(** Property C71: approximate DisSim Local with fixed vantage points. *)
From Coq Require Import String.
From Coq Require Import ZArith List Arith Lia Bool Permutation Reals Lra FunctionalExtensionality.
From Verif Require Import Py Num NumT NumF32 Arr Sort S_LS S_Approx S_Centering S_ApproxDSL M_Approx.
From Verif Require Import P_Neighbors P_ApproxFixed P_ApproxLS P_ApproxDSL.
Import ListNotations.
Local Open Scope nat_scope.

(** The data: [nq] queries [q] and [n] training objects [x] with m features. *)
Definition dsl_inputs metric s ns (nq n m : nat) (q x : nat -> nat -> R) : Prop :=
  0 < nq /\ 0 < n /\ 0 < m /\ (metric = "sqeuclidean" \/ metric = "cosine")%string /\
  (forall ind, s = SRandom ind -> ns < n) /\
  (forall i, has_direction metric m (q i)) /\ (forall i, has_direction metric m (x i)).
(** [lists_of nx nt R]: R holds d(q_i, t_j) - d(q_i, c(nx i)) - d(t_j, c(nt j)),
    where t_j is the vantage point j and c(l) the mean of the vantage points
    listed (if that mean has a direction) *)
Definition dissim_with metric m (q t : nat -> nat -> R) (nx nt : nat -> list nat) (nq s : nat) (R : arr2 xr) : Prop :=
  nrow R = nq /\ ncol R = s /\
  forall i j, i < nq -> j < s ->
    has_direction metric m (centroidR t (nx i)) -> has_direction metric m (centroidR t (nt j)) ->
    at2 R i j = XFin (distance_of metric m (q i) (t j) - distance_of metric m (q i) (centroidR t (nx i))
                      - distance_of metric m (t j) (centroidR t (nt j)))%R.

(** the neighbour lists the code computes, for any argpartition *)
Lemma dsl_run argpart sdist metric k s ns nq n m q x : 1 <= k ->
  let v := vantage s n in let t j := x (nth j v 0) in
  let rowx i := map (fun l => XFin (distance_of metric m (q i) (t l))) (seq 0 (length v)) in
  let rowt j := map (fun l => XFin (distance_of metric m (t j) (t l))) (seq 0 (length v)) in
  argpart_ok argpart -> dsl_inputs metric s ns nq n m q x -> distance_correct sdist metric m -> k + 1 < length v ->
  exists R, dsl_fixed xsum sdist argpart metric k s ns (rmat n m x) (rmat nq m q) = Ok R /\
    dissim_with metric m q t (fun i => firstn k (argpart (rowx i) [k]))
                (fun j => firstn k (skipn 1 (argpart (rowt j) [k + 1]))) nq (length v) R.
Proof.
  intros Hk v t rowx rowt Hap (Hq & Hn & Hm & Hme & Hs & Dq & Dx) Hd Hv.
  assert (SF : sampling_fits s n ns) by (destruct s as [|l|l]; cbn; auto; exact (Hs l eq_refl)).
  assert (KM : known_metric metric = true) by (unfold known_metric; destruct Hme as [->| ->]; reflexivity).
  destruct (dsl_fixed_eq sdist argpart xsum metric k s ns (rmat n m x) (rmat nq m q)) as (_ & H); auto.
  - split; [exact Hn|]. split; [exact Hm|]. reflexivity.
  - cbn. fold v. lia.
  - split; [exact Hq|]. split; [exact Hm|]. reflexivity.
  - destruct (H Hv) as (R & E & A & B & C). exists R. split; [exact E|]. split; [exact A|]. split; [exact B|].
    intros i j Hi Hj D1 D2. rewrite (C i j Hi Hj). clear C.
    change (nrow (rmat n m x)) with n. fold v.
    change (ncol (rmat nq m q)) with m. change (ncol (rows_at (rmat n m x) v)) with m.
    assert (Ex : rowl (cross_dists sdist metric (rmat nq m q) (rows_at (rmat n m x) v)) i = rowx i).
    { unfold rowl, rowx. cbn [ncol cross_dists rows_at nrow]. apply map_ext. intros l. cbn [at2 cross_dists rows_at rmat ncol]. apply Hd; [apply Dq|apply Dx]. }
    assert (Et : self_row sdist metric (rows_at (rmat n m x) v) j = rowt j).
    { unfold self_row, rowt. cbn [nrow rows_at]. apply map_ext. intros l. cbn [at2 rows_at rmat ncol].
      destruct (Nat.eqb_spec l j) as [->|Hl].
      - rewrite distance_of_self; auto. apply Dx.
      - apply Hd; apply Dx. }
    rewrite Ex, Et.
    assert (Lx : length (argpart (rowx i) [k]) = length v).
    { assert (L : length (rowx i) = length v) by (unfold rowx; now rewrite map_length, seq_length).
      destruct (Hap (rowx i) [k]) as (P & _); [intros z [<-|[]]; rewrite L; lia|]. rewrite (Permutation_length P), seq_length. exact L. }
    assert (Lt : length (argpart (rowt j) [k + 1]) = length v).
    { assert (L : length (rowt j) = length v) by (unfold rowt; now rewrite map_length, seq_length).
      destruct (Hap (rowt j) [k + 1]) as (P & _); [intros z [<-|[]]; rewrite L; lia|]. rewrite (Permutation_length P), seq_length. exact L. }
    assert (S0 : slice (argpart (rowx i) [k]) 0 k = firstn k (argpart (rowx i) [k])) by (unfold slice; now rewrite Nat.sub_0_r).
    assert (S1 : slice (argpart (rowt j) [k + 1]) 1 (k + 1) = firstn k (skipn 1 (argpart (rowt j) [k + 1]))) by (unfold slice; f_equal; lia).
    rewrite S0, S1.
    rewrite (dist_to_cent_xr metric m (q i) (centroidR t (firstn k (argpart (rowx i) [k])))); auto.
    2:{ intros f. apply (centroid_xr t); [|reflexivity]. intros C. apply (f_equal (@length nat)) in C. rewrite firstn_length, Lx in C. cbn in C. lia. }
    rewrite (dist_to_cent_xr metric m (t j) (centroidR t (firstn k (skipn 1 (argpart (rowt j) [k + 1]))))); auto.
    2:{ intros f. apply (centroid_xr t); [|reflexivity]. intros C. apply (f_equal (@length nat)) in C. rewrite firstn_length, skipn_length, Lt in C. cbn in C. lia. }
    2:{ apply Dx. }
    change (at2 (cross_dists sdist metric (rmat nq m q) (rows_at (rmat n m x) v)) i j)
      with (sdist metric m (fun f => XFin (q i f)) (fun f => XFin (t j f))).
    rewrite (Hd (q i) (t j)); [|apply Dq|apply Dx]. reflexivity.
Qed.

Lemma firstn_snoc (p : list nat) k : k < length p -> firstn (S k) p = firstn k p ++ [nth k p 0].
Proof.
  revert p. induction k as [|k IH]; intros [|a p] H; cbn in *; try lia; [reflexivity|]. f_equal. apply IH. lia.
Qed.

(** For every legal np.argpartition: a query uses its k nearest vantage points;
    a vantage point uses k of the k+1 vantage points nearest to it, itself
    included. *)
Theorem C71_value :
  forall argpart sdist metric k s ns nq n m q x,
    let v := vantage s n in let t j := x (nth j v 0) in
    argpart_ok argpart -> dsl_inputs metric s ns nq n m q x -> distance_correct sdist metric m -> 1 <= k -> k + 1 < length v ->
    exists R nx nt,
      dsl_fixed xsum sdist argpart metric k s ns (rmat n m x) (rmat nq m q) = Ok R /\
      (forall i, i < nq -> top_k Rle (fun l => distance_of metric m (q i) (t l)) (seq 0 (length v)) k (nx i)) /\
      (forall j, j < length v -> exists a, top_k Rle (fun l => distance_of metric m (t j) (t l)) (seq 0 (length v)) (k + 1) (a :: nt j)) /\
      dissim_with metric m q t nx nt nq (length v) R.
Proof.
  intros argpart sdist metric k s ns nq n m q x v t Hap HI Hd Hk Hv.
  destruct (dsl_run argpart sdist metric k s ns nq n m q x Hk Hap HI Hd Hv) as (R & E & H).
  exists R. eexists. eexists. split; [exact E|]. split; [|split; [|exact H]].
  - intros i Hi. cbv beta. apply argpart_top_k; [unfold v in *; lia|]. apply Hap. intros z [<-|[]]. rewrite map_length, seq_length. fold v. lia.
  - intros j Hj. cbv beta. fold v. set (l := map _ _).
    assert (A : is_argpart l [k + 1] (argpart l [k + 1])).
    { apply Hap. intros z [<-|[]]. unfold l. rewrite map_length, seq_length. fold v. lia. }
    pose proof (argpart_top_k _ _ _ _ Hv A) as T. destruct (argpart l [k + 1]) as [|a p].
    + destruct T as (T & _). rewrite firstn_nil in T. cbn in T. lia.
    + exists a. replace (k + 1) with (S k) in T by lia. replace (k + 1) with (S k) by lia. exact T.
Qed.

(** At most k+1 vantage points, or an unknown metric: ValueError. *)
Theorem C71_errors :
  forall argpart vsum sdist metric k s ns (Xall X : arr2 f32),
    let v := vantage s (nrow Xall) in
    clean Xall -> clean X -> ncol X = ncol Xall -> (forall ind, s = SRandom ind -> ns < nrow Xall) -> 0 < length v ->
    length v <= k + 1 \/ (metric <> "sqeuclidean"%string /\ metric <> "cosine"%string) ->
    dsl_fixed vsum sdist argpart metric k s ns Xall X = Raise ValueError.
Proof.
  intros argpart vsum sdist metric k s ns Xall X v C1 C2 C3 Hs Hv H.
  assert (SF : sampling_fits s (nrow Xall) ns) by (destruct s as [|l|l]; cbn; auto; exact (Hs l eq_refl)).
  destruct (known_metric metric) eqn:KM.
  - destruct H as [H|(H1 & H2)].
    + now apply (dsl_fixed_eq sdist argpart vsum metric k s ns Xall X).
    + unfold known_metric in KM. apply String.eqb_neq in H1, H2. now rewrite H1, H2 in KM.
  - unfold dsl_fixed.
    assert (E1 : fit_check Xall = Ok tt) by (now apply check_array_iff).
    assert (E2 : sampling_check s (nrow Xall) ns = Ok tt).
    { assert (E := proj2 (fit_ok_iff Xall s ns) (conj C1 SF)). rewrite E1 in E. exact E. }
    rewrite E1, E2. cbn [bind]. unfold dsl_train_nn. rewrite KM. reflexivity.
Qed.

(** DEFECT: which of the k+1 nearest is left out is not specified by numpy.  With
    a sorting argpartition, each vantage point uses its k nearest others.  With
    another legal one, each vantage point uses itself and its k-1 nearest others. *)
Theorem C71_depends_on_argpartition :
  forall sdist metric k s ns nq n m q x,
    let v := vantage s n in let t j := x (nth j v 0) in
    dsl_inputs metric s ns nq n m q x -> distance_correct sdist metric m -> 1 <= k -> k + 1 < length v ->
    (forall a b, a < length v -> b < length v -> a <> b -> (0 < distance_of metric m (t a) (t b))%R) ->
    exists argpart argpart' R R' nx nx' nt nt',
      argpart_ok argpart /\ argpart_ok argpart' /\
      dsl_fixed xsum sdist argpart metric k s ns (rmat n m x) (rmat nq m q) = Ok R /\
      dsl_fixed xsum sdist argpart' metric k s ns (rmat n m x) (rmat nq m q) = Ok R' /\
      dissim_with metric m q t nx nt nq (length v) R /\ dissim_with metric m q t nx' nt' nq (length v) R' /\
      (forall i, i < nq -> Permutation (nx i) (nx' i) /\
         top_k Rle (fun l => distance_of metric m (q i) (t l)) (seq 0 (length v)) k (nx i)) /\
      forall j, j < length v ->
        top_k Rle (fun l => distance_of metric m (t j) (t l)) (but j (length v)) k (nt j) /\
        exists l, Permutation (nt' j) (j :: l) /\
          top_k Rle (fun l => distance_of metric m (t j) (t l)) (but j (length v)) (k - 1) l.
Proof.
  intros sdist metric k s ns nq n m q x v t HI Hd Hk Hv Hpos.
  destruct (dsl_run ref_argpart sdist metric k s ns nq n m q x Hk (ref_argpart_ok xr_cmp) HI Hd Hv) as (R & E & H).
  destruct (dsl_run rev_argpart sdist metric k s ns nq n m q x Hk (rev_argpart_ok xr_cmp) HI Hd Hv) as (R' & E' & H').
  exists ref_argpart, rev_argpart, R, R'. eexists. eexists. eexists. eexists.
  split; [exact (ref_argpart_ok xr_cmp)|]. split; [exact (rev_argpart_ok xr_cmp)|]. split; [exact E|]. split; [exact E'|].
  split; [exact H|]. split; [exact H'|]. cbv beta. fold v. split.
  - intros i Hi. set (l := map _ _).
    assert (L : length l = length v) by (unfold l; now rewrite map_length, seq_length).
    pose proof (ref_argsort_ok xr_cmp l) as (HP & _).
    assert (Lp : length (ref_argsort l) = length v) by (rewrite (Permutation_length HP), seq_length; exact L).
    split.
    + unfold rev_argpart, ref_argpart. rewrite firstn_app.
      assert (Lr : length (rev (firstn k (ref_argsort l))) = k) by (rewrite rev_length, firstn_length; lia).
      rewrite Lr, Nat.sub_diag. cbn [firstn]. rewrite app_nil_r. rewrite (firstn_all2 (n:=k) (rev (firstn k (ref_argsort l)))) by lia. apply Permutation_rev.
    + apply argpart_top_k; [fold v; lia|]. apply (ref_argpart_ok xr_cmp). intros z [<-|[]]. change (k < length l). lia.
  - intros j Hj.
    set (f := fun l => distance_of metric m (t j) (t l)).
    set (l := map _ _). change l with (map (fun a => XFin (f a)) (seq 0 (length v))). clear l.
    set (l := map (fun a => XFin (f a)) (seq 0 (length v))).
    destruct HI as (_ & _ & _ & Hme & _ & _ & Dx).
    assert (Hself : forall a, a < length v -> a <> j -> (f j < f a)%R).
    { intros a Ha Hne. unfold f. rewrite distance_of_self; [|apply Dx|exact Hme]. apply Hpos; auto. }
    pose proof (ref_argsort_ok xr_cmp l) as HS.
    destruct (sort_self_first f (length v) j Hj Hself _ HS) as (p & Ep & Pp).
    assert (Lp : length p = length v - 1) by (rewrite (Permutation_length Pp); now apply P_ApproxMPG.but_length).
    split.
    + unfold ref_argpart. rewrite Ep. cbn [skipn]. apply (sorted_others_top f (length v) j Hj Hself _ p k HS Ep). lia.
    + exists (firstn (k - 1) p). split; [|apply (sorted_others_top f (length v) j Hj Hself _ p (k - 1) HS Ep); lia].
      unfold rev_argpart. rewrite Ep. replace (k + 1) with (S k) by lia. cbn [firstn rev].
      set (r := rev (firstn k p)).
      assert (Er : exists z, firstn k p = firstn (k - 1) p ++ [z]).
      { exists (nth (k - 1) p 0). replace k with (S (k - 1)) at 1 by lia. apply firstn_snoc. lia. }
      destruct Er as (z & Er). unfold r. rewrite Er, rev_app_distr. cbn [rev app skipn].
      rewrite <- !app_assoc. rewrite firstn_app. rewrite rev_length, firstn_length.
      rewrite (firstn_all2 (n:=k) (rev (firstn (k - 1) p))) by (rewrite rev_length, firstn_length; lia).
      replace (k - Init.Nat.min (k - 1) (length p)) with 1 by lia. cbn [app firstn].
      rewrite <- Permutation_rev. rewrite Permutation_app_comm. reflexivity.
Qed.

(** Observable for k = 1: the second argpartition subtracts nothing for the
    vantage point, the first its distance to the nearest other one. *)
Theorem C71_self_neighbour_k1 :
  forall sdist metric s ns nq n m q x,
    let v := vantage s n in let t j := x (nth j v 0) in
    dsl_inputs metric s ns nq n m q x -> distance_correct sdist metric m -> 2 < length v ->
    (forall a b, a < length v -> b < length v -> a <> b -> (0 < distance_of metric m (t a) (t b))%R) ->
    exists argpart argpart' R R' near,
      argpart_ok argpart /\ argpart_ok argpart' /\
      dsl_fixed xsum sdist argpart metric 1 s ns (rmat n m x) (rmat nq m q) = Ok R /\
      dsl_fixed xsum sdist argpart' metric 1 s ns (rmat n m x) (rmat nq m q) = Ok R' /\
      forall i j, i < nq -> j < length v -> exists r,
        at2 R' i j = XFin r /\ at2 R i j = XFin (r - near j)%R /\ (0 < near j)%R /\
        (exists l, l < length v /\ l <> j /\ near j = distance_of metric m (t j) (t l)) /\
        forall l, l < length v -> l <> j -> (near j <= distance_of metric m (t j) (t l))%R.
Proof.
  intros sdist metric s ns nq n m q x v t HI Hd Hv Hpos.
  destruct (C71_depends_on_argpartition sdist metric 1 s ns nq n m q x HI Hd (le_n 1) Hv Hpos)
    as (ap & ap' & R & R' & nx & nx' & nt & nt' & A & A' & E & E' & (_ & _ & D) & (_ & _ & D') & Hx & Ht).
  fold v in D, D', Hx, Ht. fold t in Hpos.
  change (fun j => x (nth j v 0)) with t in D, D', Hx, Ht, Hpos.
  destruct HI as (_ & _ & _ & Hme & _ & Dq & Dx).
  assert (C1 : forall b f, centroidR t [b] f = t b f) by (intros; unfold centroidR; cbn; field).
  assert (DO : forall u w w', (forall f, w f = w' f) -> distance_of metric m u w = distance_of metric m u w').
  { intros u w w' Hw. now rewrite (functional_extensionality _ _ Hw). }
  assert (HD : forall b, has_direction metric m (centroidR t [b])).
  { intros b Hc. specialize (Dx (nth b v 0) Hc). unfold normR, dotR in *. erewrite map_ext; [exact Dx|]. intros f. cbv beta. now rewrite C1. }
  exists ap, ap', R, R', (fun j => distance_of metric m (t j) (t (hd 0 (nt j)))).
  split; [exact A|]. split; [exact A'|]. split; [exact E|]. split; [exact E'|].
  intros i j Hi Hj. destruct (Hx i Hi) as (Px & Lx & _). destruct (Ht j Hj) as ((Lt & _ & It & Bt) & l & Pl & Ll & _).
  destruct (nx i) as [|b [|? ?]] eqn:En; try discriminate Lx. apply Permutation_length_1_inv in Px.
  destruct (nt j) as [|a [|? ?]] eqn:Ea; try discriminate Lt. destruct l; [|discriminate Ll]. apply Permutation_sym, Permutation_length_1_inv in Pl.
  cbn [hd]. assert (Ia : In a (but j (length v))) by (apply It; now left).
  apply filter_In in Ia as (Ia & Hne). apply in_seq in Ia. assert (Hne' : a <> j) by (intros ->; now rewrite Nat.eqb_refl in Hne).
  eexists. split; [|split; [|split; [|split]]].
  - apply D'; auto; rewrite ?Px, ?Pl; apply HD.
  - rewrite D by (auto; rewrite ?En, ?Ea; apply HD). rewrite En, Ea, Px, Pl. f_equal. change (x (nth j v 0)) with (t j).
    rewrite (DO (t j) (centroidR t [a]) (t a)) by (intros; apply C1). rewrite (DO (t j) (centroidR t [j]) (t j)) by (intros; apply C1).
    rewrite (distance_of_self metric m (t j)); [|apply Dx|exact Hme]. lra.
  - apply Hpos; lia.
  - exists a. split; [lia|]. split; [exact Hne'|reflexivity].
  - intros l Hl Hlj. destruct (Nat.eq_dec l a) as [->|Hla]; [lra|].
    apply Bt; [now left| |intros [->|[]]; contradiction].
    apply filter_In. split; [apply in_seq; lia|]. destruct (Nat.eqb_spec l j); [contradiction|reflexivity].
Qed.

(** four different objects, no sampling, k = 1 *)
Example ex_C71 :
  let x i (_ : nat) := INR (i * i) in
  dsl_inputs "sqeuclidean" SNone 0 2 4 1 x x /\ 2 < length (vantage SNone 4) /\
  (exists sdist, distance_correct sdist "sqeuclidean" 1) /\
  forall a b, a < 4 -> b < 4 -> a <> b -> (0 < distance_of "sqeuclidean" 1 (x (nth a (vantage SNone 4) 0%nat)) (x (nth b (vantage SNone 4) 0%nat)))%R.
Proof.
  intros x. split; [|split; [cbn; lia|split]].
  - repeat (split; [lia|]). split; [now left|]. split; [intros ind; discriminate|]. split; intros i Hc; discriminate Hc.
  - exists (fun _ m u v => match u 0, v 0 with XFin a, XFin b => XFin ((a - b) * (a - b) + 0) | _, _ => XNaN end).
    intros u v _ _. reflexivity.
  - intros a b Ha Hb Hne. unfold distance_of. cbn [String.eqb Ascii.eqb Bool.eqb vantage nrow]. rewrite !seq_nth by assumption.
    unfold sqdistR, x. cbn [seq map rsum fold_right Nat.add].
    destruct (Rtotal_order (INR (a * a)) (INR (b * b))) as [G|[G|G]]; [nra| |nra].
    apply INR_eq in G. exfalso. nia.
Qed.

Print Assumptions C71_value.
Print Assumptions C71_errors.
Print Assumptions C71_depends_on_argpartition.
Print Assumptions C71_self_neighbour_k1.
