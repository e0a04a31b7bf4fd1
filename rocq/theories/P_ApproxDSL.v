(** Lemmas about DisSim Local with fixed vantage points. *)
From Coq Require Import String.
From Coq Require Import ZArith List Arith Lia Bool Permutation Reals Lra.
From Verif Require Import Py Num NumT Arr Sort S_Neighbors S_LS S_Approx S_Centering S_ApproxDSL M_Hubness M_SNN M_LS M_Dist M_HubnessClass M_Approx.
From Verif Require Import P_Neighbors P_Hubness P_LS P_NICDM P_HubnessClass3 P_ApproxFixed P_ApproxMPG P_ApproxLS.
Import ListNotations.
Local Open Scope nat_scope.

Section DSLF.
  Context {V : Type} {N : Num V}.
  Variables (sdist : string -> nat -> (nat -> V) -> (nat -> V) -> V) (argpart : list V -> list nat -> list nat).

  Lemma dsl_train_eq metric k Xt : known_metric metric = true -> 0 < nrow Xt ->
    dsl_train_nn sdist argpart metric k Xt =
    if k + 1 <? nrow Xt then Ok (map (fun j => slice (argpart (self_row sdist metric Xt j) [k + 1]) 1 (k + 1)) (seq 0 (nrow Xt))) else Raise ValueError.
  Proof.
    intros Hm Hn. unfold dsl_train_nn. rewrite Hm. cbn [negb guard bind]. destruct (Nat.ltb_spec (k + 1) (nrow Xt)) as [H|H].
    - apply mapM_ok_map. intros j Hj. rewrite rowl_self, np_argpart_one, self_row_length.
      destruct (Nat.ltb_spec (k + 1) (nrow Xt)); [reflexivity|lia].
    - destruct (nrow Xt) as [|n] eqn:En; [lia|]. cbn [seq mapM]. rewrite rowl_self, np_argpart_one, self_row_length, En.
      destruct (Nat.ltb_spec (k + 1) (S n)); [lia|reflexivity].
  Qed.
  Lemma dsl_test_eq k (D : arr2 V) : k < ncol D ->
    dsl_test_nn argpart k D = Ok (map (fun i => slice (argpart (rowl D i) [k]) 0 k) (seq 0 (nrow D))).
  Proof.
    intros Hk. unfold dsl_test_nn.
    assert (L : forall i, length (rowl D i) = ncol D) by (intros; unfold rowl; now rewrite map_length, seq_length).
    apply mapM_ok_map. intros i Hi. rewrite np_argpart_one, L. destruct (Nat.ltb_spec k (ncol D)); [reflexivity|lia].
  Qed.

  Lemma dsl_fixed_eq vsum metric k s ns (Xall X : arr2 V) :
    let v := vantage s (nrow Xall) in
    let Xt := rows_at Xall v in
    let D := cross_dists sdist metric X Xt in
    let nt j := slice (argpart (self_row sdist metric Xt j) [k + 1]) 1 (k + 1) in
    let nx i := slice (argpart (rowl D i) [k]) 0 k in
    clean Xall -> sampling_fits s (nrow Xall) ns -> 0 < length v -> known_metric metric = true -> clean X -> ncol X = ncol Xall ->
    (length v <= k + 1 -> dsl_fixed vsum sdist argpart metric k s ns Xall X = Raise ValueError) /\
    (k + 1 < length v -> exists R, dsl_fixed vsum sdist argpart metric k s ns Xall X = Ok R /\
      nrow R = nrow X /\ ncol R = length v /\
      forall i j, i < nrow X -> j < length v ->
        at2 R i j = nsub (nsub (at2 D i j) (dist_to_cent vsum metric (ncol X) (at2 X i) (centroid vsum Xt (nx i))))
                         (dist_to_cent vsum metric (ncol Xt) (at2 Xt j) (centroid vsum Xt (nt j)))).
  Proof.
    intros v Xt D nt nx C1 C2 Hv Hm C3 C4. unfold dsl_fixed.
    assert (E1 : fit_check Xall = Ok tt) by (now apply check_array_iff).
    assert (E2 : sampling_check s (nrow Xall) ns = Ok tt).
    { assert (E := proj2 (fit_ok_iff Xall s ns) (conj C1 C2)). rewrite E1 in E. exact E. }
    rewrite E1, E2. cbn [bind]. fold v. fold Xt. rewrite dsl_train_eq by (auto; cbn; exact Hv). cbn [nrow Xt rows_at].
    destruct (Nat.ltb_spec (k + 1) (length v)) as [H|H]; (split; intros H'; [|]); try lia; [|reflexivity].
    cbn [bind]. assert (E3 : trans_check X Xt = Ok tt) by (apply trans_check_iff; auto). rewrite E3. cbn [bind]. fold D.
    rewrite dsl_test_eq by (cbn; lia). cbn [bind nrow D cross_dists].
    eexists. split; [reflexivity|]. split; [reflexivity|]. split; [reflexivity|].
    intros i j Hi Hj. cbn [at2]. rewrite !nth_map_seq by assumption. reflexivity.
  Qed.
End DSLF.

(** ** lists of nearest over exact numbers *)
Section TopK.
  Variables (f : nat -> R) (n : nat).
  Let l := map (fun a => XFin (f a)) (seq 0 n).
  Lemma vat_l a : a < n -> vat l a = XFin (f a).
  Proof. intros H. unfold vat, l. now rewrite nth_map_seq. Qed.
  Lemma argpart_top_k p k : k < n -> is_argpart l [k] p -> top_k Rle f (seq 0 n) k (firstn k p).
  Proof.
    intros Hk Hp. assert (L : length l = n) by (unfold l; now rewrite map_length, seq_length).
    destruct (argpart_kset_dist xr_cmp l k p ltac:(lia) Hp) as (A & B & C & D).
    split; [exact A|]. split; [exact B|]. split.
    - intros a Ha. apply in_seq. apply C in Ha. lia.
    - intros a b Ha Hb Hn. apply in_seq in Hb. pose proof (C a Ha) as Ha'.
      specialize (D b a ltac:(lia) Hn Ha). rewrite !vat_l in D by lia. cbn in D. destruct (Rlt_dec (f b) (f a)); [discriminate|lra].
  Qed.

  (** a point strictly nearer to itself than all others comes first in a sort *)
  Variable j : nat.
  Hypothesis Hj : j < n.
  Hypothesis Hself : forall a, a < n -> a <> j -> (f j < f a)%R.
  Lemma sort_self_first p : is_argsort l p -> exists t, p = j :: t /\ Permutation t (but j n).
  Proof using Hj Hself.
    intros (HP & HS). assert (L : length l = n) by (unfold l; now rewrite map_length, seq_length). rewrite L in HP, HS.
    destruct p as [|a t]; [apply Permutation_nil in HP; destruct n; [lia|discriminate]|].
    assert (Ha : a < n). { assert (I : In a (seq 0 n)) by (eapply Permutation_in; [exact HP|now left]). apply in_seq in I. lia. }
    assert (E : a = j).
    { destruct (Nat.eq_dec a j) as [|Hne]; [assumption|exfalso].
      assert (I : In j (a :: t)) by (eapply Permutation_in; [symmetry; exact HP|apply in_seq; lia]).
      apply (In_nth _ _ 0) in I. destruct I as (b & Hb & Eb).
      destruct b as [|b]; [cbn in Eb; congruence|].
      specialize (HS 0 (S b) ltac:(lia) ltac:(rewrite (Permutation_length HP), seq_length in Hb; lia)).
      rewrite Eb in HS. change (nth 0 (a :: t) 0) with a in HS. apply (sle_not_lt xr_cmp) in HS.
      rewrite !vat_l in HS by lia. cbn in HS. specialize (Hself a Ha Hne). destruct (Rlt_dec (f j) (f a)); [discriminate|lra]. }
    subst a. exists t. split; [reflexivity|].
    apply (Permutation_cons_inv (a := j)). rewrite HP. unfold but. apply perm_pull; [apply seq_NoDup|apply in_seq; lia].
  Qed.
  Lemma sorted_others_top p t k : is_argsort l p -> p = j :: t -> k <= n - 1 ->
    top_k Rle f (but j n) k (firstn k t).
  Proof using Hj Hself.
    intros Hp E Hk. destruct (sort_self_first p Hp) as (t' & E' & Pt). rewrite E in E'. injection E' as <-.
    destruct Hp as (HP & HS). assert (L : length l = n) by (unfold l; now rewrite map_length, seq_length). rewrite L in HP, HS.
    assert (Lt : length t = n - 1) by (rewrite (Permutation_length Pt); now apply but_length).
    assert (ND : NoDup t).
    { apply (Permutation_NoDup (Permutation_sym Pt)). apply NoDup_filter, seq_NoDup. }
    split; [rewrite firstn_length; lia|]. split; [now apply NoDup_firstn|].
    split; [intros a Ha; eapply Permutation_in; [exact Pt|]; rewrite <- (firstn_skipn k t); apply in_app_iff; now left|].
    intros a b Ha Hb Hn.
    assert (Ib : In b (skipn k t)).
    { assert (I : In b t) by (eapply Permutation_in; [symmetry; exact Pt|exact Hb]). rewrite <- (firstn_skipn k t) in I.
      apply in_app_iff in I. tauto. }
    apply (In_nth _ _ 0) in Ha. destruct Ha as (u & Hu & <-). rewrite firstn_length in Hu.
    apply (In_nth _ _ 0) in Ib. destruct Ib as (w & Hw & <-). rewrite skipn_length in Hw.
    rewrite nth_firstn_lt by lia. rewrite nth_skipn_add.
    specialize (HS (S u) (S (k + w)) ltac:(lia) ltac:(lia)). rewrite E in HS. cbn [nth] in HS.
    assert (Q : forall z, z < n - 1 -> nth z t 0 < n).
    { intros z Hz. assert (I : In (nth z t 0) (but j n)) by (eapply Permutation_in; [exact Pt|apply nth_In; lia]).
      apply filter_In in I as (I & _). apply in_seq in I. lia. }
    apply (sle_not_lt xr_cmp) in HS. rewrite !vat_l in HS by (apply Q; lia). cbn in HS.
    destruct (Rlt_dec (f (nth (k + w) t 0)) (f (nth u t 0))); [discriminate|lra].
  Qed.
End TopK.

(** ** distances and centroids over exact numbers *)
Lemma xsum_reals (f : nat -> R) l : xsum (map (fun a => XFin (f a)) l) = XFin (rsum (map f l)).
Proof. rewrite <- (map_map f XFin). apply xsum_fin. Qed.
Lemma centroid_xr (x : nat -> nat -> R) Xt nn f : nn <> [] -> (forall a g, at2 Xt a g = XFin (x a g)) ->
  centroid xsum Xt nn f = XFin (centroidR x nn f).
Proof.
  intros Hn HX. unfold centroid, centroidR.
  rewrite (map_ext _ (fun a => XFin (x a f))) by (intros; apply HX). rewrite <- (map_map (fun a => x a f) XFin).
  rewrite vmean_xr by (destruct nn; [contradiction|discriminate]). unfold rmean. now rewrite map_length.
Qed.
Lemma sqdistR_self m u : sqdistR m u u = 0%R.
Proof.
  unfold sqdistR. rewrite (map_ext _ (fun _ => 0%R)) by (intros; ring). rewrite rsum_const. ring.
Qed.
Lemma dotR_nonneg m u : (0 <= dotR m u u)%R.
Proof. unfold dotR. apply rsum_nonneg. intros x Hx. apply in_map_iff in Hx as (a & <- & _). apply Rle_0_sqr. Qed.
Lemma cosR_self m u : normR m u <> 0%R -> cosR m u u = 1%R.
Proof.
  intros H. unfold cosR. assert (E : (normR m u * normR m u = dotR m u u)%R) by (apply sqrt_sqrt, dotR_nonneg).
  rewrite E. apply Rinv_r. intros C. rewrite C in E. nra.
Qed.
Lemma distance_of_self metric m u : has_direction metric m u -> (metric = "sqeuclidean" \/ metric = "cosine")%string -> distance_of metric m u u = 0%R.
Proof.
  intros Hd [->| ->]; unfold distance_of; cbn [String.eqb Ascii.eqb Bool.eqb]; [apply sqdistR_self|].
  rewrite cosR_self by (now apply Hd). ring.
Qed.
Lemma vdot_xr m (u v : nat -> R) u' v' : (forall f, u' f = XFin (u f)) -> (forall f, v' f = XFin (v f)) ->
  vdot xsum m u' v' = XFin (dotR m u v).
Proof.
  intros Hu Hv. unfold vdot, dotR. rewrite (map_ext _ (fun f => XFin (u f * v f)%R)) by (intros; now rewrite Hu, Hv). apply xsum_reals.
Qed.
Lemma dist_to_cent_xr metric m (u c : nat -> R) u' c' :
  (forall f, u' f = XFin (u f)) -> (forall f, c' f = XFin (c f)) ->
  (metric = "sqeuclidean" \/ metric = "cosine")%string -> has_direction metric m u -> has_direction metric m c ->
  dist_to_cent xsum metric m u' c' = XFin (distance_of metric m u c).
Proof.
  intros Hu Hc Hm Du Dc. unfold dist_to_cent, distance_of. destruct Hm as [->| ->]; cbn [String.eqb Ascii.eqb Bool.eqb].
  - unfold sqdist, sqdistR. rewrite (map_ext _ (fun f => XFin ((u f - c f) * (u f - c f))%R)) by (intros; now rewrite Hu, Hc). apply xsum_reals.
  - rewrite (vdot_xr m u c u' c' Hu Hc), (vdot_xr m u u u' u' Hu Hu), (vdot_xr m c c c' c' Hc Hc).
    specialize (Du eq_refl). specialize (Dc eq_refl).
    assert (S : forall w, nsqrt (XFin (dotR m w w)) = XFin (normR m w)).
    { intros w. cbn. pose proof (dotR_nonneg m w). destruct (Rlt_dec (dotR m w w) 0); [lra|reflexivity]. }
    rewrite !S. cbn. destruct (Req_EM_T (normR m u) 0); [contradiction|]. cbn. destruct (Req_EM_T (normR m c) 0); [contradiction|]. cbn.
    f_equal. unfold cosR. field. split; assumption.
Qed.
