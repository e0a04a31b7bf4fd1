(** Property C171: sparse Gamma Mutual Proximity of objects whose known similarities
    no Gamma distribution fits (global_scaling.py:851-950). *)
From Coq Require Import String.
From Coq Require Import ZArith List Arith Lia Bool Permutation Reals Lra.
From Verif Require Import Py Num NumT Arr S_Neighbors S_MP S_Approx S_MPDist S_SparseGamma M_IO M_MPEmpiric M_Approx M_MPDist.
From Verif Require Import P_MPEmpiric P_MPEmpiric2 P_ApproxMPG P_MPDist P_MPDist2 P_MPDist3 P_MPDist4 P_MPDist5 P_Hubness Properties_MPDist Properties_MPDist2.
Import ListNotations.
Local Open Scope nat_scope.

Lemma rsum_sq_zero (f : R -> R) l : rsum (map (fun x => (f x * f x)%R) l) = 0%R -> forall x, In x l -> f x = 0%R.
Proof.
  induction l as [|a l IH]; intros H x I; [destruct I|].
  change (rsum (map (fun x => (f x * f x)%R) (a :: l))) with (f a * f a + rsum (map (fun x => (f x * f x)%R) l))%R in H.
  assert (P : (0 <= rsum (map (fun x => (f x * f x)%R) l))%R).
  { apply rsum_nonneg. intros y Hy. apply in_map_iff in Hy as (z & <- & _). apply Rle_0_sqr. }
  pose proof (Rle_0_sqr (f a)) as Q. unfold Rsqr in Q.
  destruct I as [<-|I]; [|apply IH; [lra|exact I]].
  assert (Z : (f a * f a = 0)%R) by lra. apply Rmult_integral in Z. tauto.
Qed.
Lemma rvar1_same l : 2 <= length l -> (rvar1 l = 0%R <-> same_values l).
Proof.
  intros L. split.
  - intros H. unfold rvar1 in H.
    assert (P : (INR (length l - 1) <> 0)%R) by (apply not_0_INR; lia).
    apply Rmult_integral in H as [H|H]; [|exfalso; now apply (Rinv_neq_0_compat _ P)].
    intros x y Ix Iy. pose proof (rsum_sq_zero (fun x => x - rmean l)%R l H) as Q. cbv beta in Q.
    pose proof (Q x Ix). pose proof (Q y Iy). lra.
  - intros H. destruct l as [|x l]; [cbn in L; lia|].
    apply (all_equal (x :: l) x L). intros y Iy. apply H; [exact Iy|now left].
Qed.

Section Cells.
  Variables (S : smat xr) (n : nat) (w : nat -> nat -> option R) (train : list nat).
  Hypothesis (HS : similarities (stored S) n w).
  Hypothesis (Ht : forall l, In l train -> l < n) (ND : NoDup train).

  Lemma sp_B_nan k : k < n -> In k train -> no_fit (known w train k) -> sp_B xsum S train k = XNaN.
  Proof.
    intros Hk I F. unfold sp_B.
    destruct (known w train k) as [|x [|y l]] eqn:EK.
    - (* no known similarity: the mean is 0/0 *)
      assert (M : sp_mu xsum S train k = XNaN).
      { destruct (sp_col_perm S n w train k HS Hk Ht ND) as (c & E & P).
        destruct (in_dec Nat.eq_dec k train); [|contradiction]. rewrite EK in P.
        apply Permutation_sym, Permutation_length_1_inv in P. subst c.
        unfold sp_mu. rewrite E. cbn. rewrite !Rplus_0_r. 
        replace (1 + - (1))%R with 0%R by ring. unfold xdiv, rsgn, xinf_s.
        repeat (match goal with |- context [if ?b then _ else _] => destruct b end); try lra; reflexivity. }
      rewrite M. destruct (sp_va xsum S train k); reflexivity.
    - (* one: the variance is infinity times 0 *)
      assert (NE : known w train k <> []) by now rewrite EK.
      assert (V : sp_va xsum S train k = XNaN).
      { unfold sp_va. rewrite (sp_mu_in S n w), (sp_E1_in S n w) by assumption.
        destruct (sp_col_perm S n w train k HS Hk Ht ND) as (c & E & P).
        destruct (in_dec Nat.eq_dec k train); [|contradiction]. rewrite E, map_length, (Permutation_length P), EK.
        cbn. unfold rmean. cbn. rewrite Rplus_0_r. rewrite !Rplus_0_r.
        replace (x * x / 1 + - (x / 1 * (x / 1)))%R with 0%R by field.
        unfold xdiv, rsgn, xinf_s, xmul.
        repeat (match goal with |- context [if ?b then _ else _] => destruct b; cbn; unfold rsgn, xinf_s end); try lra; reflexivity. }
      rewrite V. reflexivity.
    - assert (L : 2 <= length (known w train k)) by (rewrite EK; cbn; lia).
      assert (NE : known w train k <> []) by (rewrite EK; discriminate).
      rewrite sp_va_in with (n := n) (w := w) by assumption. rewrite (sp_mu_in S n w) by assumption.
      rewrite <- EK in F. pose proof (rvar1_nonneg _ L) as VP.
      set (v := rvar1 (known w train k)) in *. set (m := rmean (known w train k)) in *.
      assert (C : v = 0%R \/ (m < 0)%R).
      { destruct F as [F|[F|F]]; [lia|left; now apply rvar1_same|now right]. }
      cbv zeta. cbn [ndiv nle Num_xr xdiv]. destruct (Req_EM_T m 0) as [Em|Em].
      + destruct C as [C|C]; [|lra]. rewrite C. unfold rsgn, xinf_s.
        repeat (match goal with |- context [if ?b then _ else _] => destruct b; cbn end); try lra; reflexivity.
      + assert (Q : (v / m <= 0)%R).
        { destruct C as [C|C]; [rewrite C; unfold Rdiv; lra|].
          apply Rinv_lt_0_compat in C. unfold Rdiv. nra. }
        cbn. destruct (Rle_dec (v / m) 0); [reflexivity|contradiction].
  Qed.
End Cells.

Section Values.
  Variable gam : xr -> xr -> xr.
  Hypothesis GN : nan_in_nan_out gam.
  Variables (S : smat xr) (n : nat) (w : nat -> nat -> option R).
  Hypothesis (HS : similarities (stored S) n w).

  Lemma gas_nan i j : i < n -> j < n ->
    no_fit (known w (seq 0 n) i) \/ no_fit (known w (seq 0 n) j) ->
    gas_value xsum gam S (seq 0 n) i j = XNaN.
  Proof.
    intros Hi Hj F. assert (T : forall l, In l (seq 0 n) -> l < n) by (intros l Hl; apply in_seq in Hl; lia).
    assert (Z : forall k x, k < n -> no_fit (known w (seq 0 n) k) ->
      gamcdf gam x (sp_A xsum S (seq 0 n) k) (sp_B xsum S (seq 0 n) k) = XNaN).
    { intros k x Hk Fk. rewrite (sp_B_nan S n w (seq 0 n) HS T (seq_NoDup n 0) k Hk) by (auto; apply in_seq; lia).
      unfold gamcdf. cbv zeta. change (nle (XNaN : xr) n0) with false. cbv iota.
      replace (ndiv (if nlt x n0 then n0 else x) (XNaN : xr)) with (XNaN : xr); [apply GN|].
      destruct (nlt x n0), x; reflexivity. }
    unfold gas_value. destruct F as [F|F].
    - rewrite (Z i _ Hi F). reflexivity.
    - rewrite (Z j _ Hj F). match goal with |- nmul ?a _ = _ => destruct a end; reflexivity.
  Qed.
End Values.

(** an object that no Gamma distribution fits: the Mutual Proximity between it and
    every object with enough neighbours is stored as NaN, whether or not the input
    stores a similarity of the two *)
Theorem C171_nan_everywhere :
  forall (gam : xr -> xr -> xr) (r32 : xr -> xr) (S : smat xr) n w metric m M i j,
    nan_in_nan_out gam -> r32 XNaN = XNaN ->
    srow S = n -> similarities (stored S) n w ->
    gammai_csr xsum gam r32 S metric m None = Ok M ->
    i < j -> j < n -> m < row_nnz S i ->
    no_fit (known w (seq 0 n) i) \/ no_fit (known w (seq 0 n) j) ->
    stored M i j = Some XNaN /\ (m < row_nnz S j -> stored M j i = Some XNaN).
Proof.
  intros gam r32 S n w metric m M i j GN R3 HR HS H Hij Hj Hi F.
  unfold gammai_csr in H. apply bind_ok_inv in H as ([] & _ & H). apply bind_ok_inv in H as ([] & _ & H).
  unfold gammai_sparse in H. apply bind_ok_inv in H as ([] & _ & H). rewrite HR, train_rows_spec in H. injection H as <-.
  cbn [training]. assert (GV := gas_nan gam GN S n w HS i j ltac:(lia) Hj F).
  split; [|intros Hr].
  - rewrite sp_finish_rich by assumption. rewrite GV, R3. cbn. now rewrite R3.
  - rewrite sp_finish_rich_mirror by assumption. rewrite GV, R3. cbn. now rewrite R3.
Qed.
(** and these are all the NaN: between two other objects the value is a number
    (float32 rounding left out; similarities that are 0 on average left out, their
    shape parameter is 0) *)
Theorem C171_nan_exactly :
  forall (G : R -> R -> R) (gam : xr -> xr -> xr) (S : smat xr) n w metric m M i j,
    gamma_family G gam -> nan_in_nan_out gam ->
    srow S = n -> similarities (stored S) n w ->
    gammai_csr xsum gam (fun x => x) S metric m None = Ok M ->
    i < j -> j < n -> m < row_nnz S i ->
    rmean (known w (seq 0 n) i) <> 0%R -> rmean (known w (seq 0 n) j) <> 0%R ->
    (sval M i j = XNaN <-> no_fit (known w (seq 0 n) i) \/ no_fit (known w (seq 0 n) j)) /\
    (m < row_nnz S j -> sval M j i = sval M i j).
Proof.
  intros G gam S n w metric m M i j GF GN HR HS H Hij Hj Hi Mi Mj.
  assert (D : forall l, rmean l <> 0%R -> no_fit l \/ (2 <= length l /\ (0 < rmean l)%R /\ rvar1 l <> 0%R)).
  { intros l Hl. unfold no_fit. destruct (le_lt_dec 2 (length l)) as [L|L]; [|left; left; lia].
    destruct (Req_EM_T (rvar1 l) 0) as [E|E]; [left; right; left; now apply rvar1_same|].
    destruct (Rlt_dec (rmean l) 0); [tauto|]. right. split; [exact L|]. split; [lra|exact E]. }
  assert (ND : forall l, no_fit l -> 2 <= length l /\ (0 < rmean l)%R /\ rvar1 l <> 0%R -> False).
  { intros l F (L & P & Z). destruct F as [F|[F|F]]; [lia|apply Z; now apply rvar1_same|lra]. }
  assert (N : no_fit (known w (seq 0 n) i) \/ no_fit (known w (seq 0 n) j) ->
    sval M i j = XNaN /\ (m < row_nnz S j -> sval M j i = XNaN)).
  { intros F. destruct (C171_nan_everywhere gam (fun x => x) S n w metric m M i j GN eq_refl HR HS H Hij Hj Hi F) as (A & B).
    unfold sval. rewrite A. split; [reflexivity|]. intros Hr. now rewrite (B Hr). }
  destruct (D _ Mi) as [Fi|Fi], (D _ Mj) as [Fj|Fj];
    try (destruct N as (N1 & N2); [tauto|]; split; [tauto|intros Hr; rewrite N1; now apply N2]).
  destruct (C94_sparse_gamma_values G gam S n w metric m M i j GF HR HS H Hij Hj Hi) as (A & B & _).
  { intros k [-> | ->]; assumption. }
  split; [|intros Hr; rewrite A; now apply B].
  rewrite A. split; [discriminate|]. intros [F|F]; exfalso; eapply ND; eassumption.
Qed.
(** an unweighted graph: all values between objects are NaN *)
Theorem C171_unweighted_graph :
  forall (gam : xr -> xr -> xr) (r32 : xr -> xr) (S : smat xr) n w metric m M i j,
    nan_in_nan_out gam -> r32 XNaN = XNaN ->
    srow S = n -> similarities (stored S) n w -> unweighted n w ->
    gammai_csr xsum gam r32 S metric m None = Ok M ->
    i < n -> j < n -> i <> j -> m < row_nnz S i -> m < row_nnz S j ->
    stored M i j = Some XNaN.
Proof.
  intros gam r32 S n w metric m M i j GN R3 HR HS (c & U) H Hi Hj Hij Ri Rj.
  assert (K : forall k, k < n -> forall x, In x (known w (seq 0 n) k) -> x = c).
  { intros k Hk x I. unfold known in I. apply in_flat_map in I as (l & Il & I). apply in_seq in Il.
    destruct (Nat.eqb_spec l k); [destruct I|]. destruct (w l k) as [v|] eqn:E; [|destruct I].
    destruct I as [<-|[]]. apply (U l k v); auto; lia. }
  assert (F : forall k, k < n -> no_fit (known w (seq 0 n) k)).
  { intros k Hk. right; left. intros x y Ix Iy. rewrite (K k Hk x Ix). symmetry. now apply (K k). }
  destruct (Nat.lt_trichotomy i j) as [L|[L|L]]; [|contradiction|].
  - apply (C171_nan_everywhere gam r32 S n w metric m M i j); auto.
  - apply (C171_nan_everywhere gam r32 S n w metric m M j i); auto.
Qed.

(** ** The hypotheses can be met *)
(** the five objects of C94 with object 4 knowing objects 1 and 2; a sixth, object 5,
    knows object 1 only: its column is NaN, also for objects it has no similarity to *)
Definition pend_w (i j : nat) : option R :=
  if (i =? 5) && (j =? 5) then Some 1%R
  else if ((i =? 5) && (j =? 1)) || ((i =? 1) && (j =? 5)) then Some (/ 5)%R
  else if (i =? 5) || (j =? 5) then None else star_w 4 i j.
Definition pend_S : smat xr := SMat 6 6 (fun i j => option_map XFin (pend_w i j)).
Lemma pend_ok : similarities (stored pend_S) 6 pend_w.
Proof.
  destruct (star_ok 4 (or_intror eq_refl)) as (_ & B & C).
  split; [reflexivity|]. split.
  - intros i Hi. unfold pend_w. destruct (Nat.eqb_spec i 5) as [->|N]; [reflexivity|]. cbn [andb orb].
    rewrite andb_false_r. apply B. lia.
  - intros i j Hi Hj. unfold pend_w.
    destruct (Nat.eqb_spec i 5) as [->|Ni], (Nat.eqb_spec j 5) as [->|Nj]; cbn [andb orb Nat.eqb].
    + split; [reflexivity|]. intros E; injection E; lra.
    + destruct (j =? 1); cbn; (split; [reflexivity|]); intros E; [injection E; lra|discriminate].
    + destruct (i =? 1); cbn; (split; [reflexivity|]); intros E; [injection E; lra|discriminate].
    + rewrite !andb_false_r. cbn [orb]. apply C; lia.
Qed.
Definition ratio_gam' (a x : xr) : xr := match x with XNaN => XNaN | _ => ratio_gam a x end.
Lemma ratio_nan : gamma_family (fun _ x => x / (1 + x))%R ratio_gam' /\ nan_in_nan_out ratio_gam'.
Proof.
  split; [|intros a; reflexivity]. destruct ratio_family as (A & B). split; [exact A|].
  intros [| |x|]; reflexivity.
Qed.
Example C171_case : exists M,
  gammai_csr xsum ratio_gam' (fun x => x) pend_S "similarity" 3 None = Ok M /\
  stored pend_S 0 5 = None /\ stored M 0 5 = Some XNaN /\ stored pend_S 1 5 = Some (XFin (/ 5)) /\
  stored M 1 5 = Some XNaN /\ sval M 0 1 <> XNaN.
Proof.
  assert (E : exists M, gammai_csr xsum ratio_gam' (fun x => x) pend_S "similarity" 3 None = Ok M).
  { unfold gammai_csr. cbn [srow scol pend_S]. change (check_distance_matrix_shape (Sparse 6 6)) with (Ok tt).
    cbn [bind]. change (check_valid_metric_parameter "similarity") with (Ok tt). cbn [bind]. unfold gammai_sparse.
    rewrite (unit_diag_ok pend_S 6 pend_w eq_refl eq_refl pend_ok) by lia. eexists. reflexivity. }
  destruct E as (M & E). exists M. split; [exact E|].
  destruct ratio_nan as (GF & GN).
  assert (F : no_fit (known pend_w (seq 0 6) 5)) by (left; cbn; lia).
  assert (Q : forall i, i < 5 -> 3 < row_nnz pend_S i -> stored M i 5 = Some XNaN).
  { intros i Hi R. apply (C171_nan_everywhere ratio_gam' (fun x => x) pend_S 6 pend_w "similarity" 3 M i 5); auto using pend_ok with arith. }
  split; [reflexivity|]. split; [apply Q; cbv; lia|]. split; [reflexivity|]. split; [apply Q; cbv; lia|].
  assert (K0 : known pend_w (seq 0 6) 0 = [/ 2; / 3; / 3]%R) by reflexivity.
  assert (K1 : known pend_w (seq 0 6) 1 = [/ 2; / 4; / 2; / 2; / 5]%R) by reflexivity.
  destruct (C94_sparse_gamma_values _ ratio_gam' pend_S 6 pend_w "similarity" 3 M 0 1 GF eq_refl pend_ok E) as (V & _);
    [lia|lia|cbv; lia| |rewrite V; discriminate].
  intros k [-> | ->]; rewrite ?K0, ?K1; (split; [cbn; lia|]); (split; [unfold rmean; cbn; lra|]); apply rvar1_pos; lra.
Qed.
(** a triangle of equal similarities *)
Definition flat_w (i j : nat) : option R := Some (if i =? j then 1 else / 2)%R.
Definition flat_S : smat xr := SMat 3 3 (fun i j => option_map XFin (flat_w i j)).
Example C171_unweighted_case : exists M,
  gammai_csr xsum ratio_gam' (fun x => x) flat_S "similarity" 2 None = Ok M /\
  forall i j, i < 3 -> j < 3 -> i <> j -> stored M i j = Some XNaN.
Proof.
  assert (HS : similarities (stored flat_S) 3 flat_w).
  { split; [reflexivity|]. split; [intros i _; unfold flat_w; now rewrite Nat.eqb_refl|].
    intros i j _ _. unfold flat_w. rewrite (Nat.eqb_sym j i). split; [reflexivity|].
    destruct (i =? j); intros C; injection C; lra. }
  assert (E : exists M, gammai_csr xsum ratio_gam' (fun x => x) flat_S "similarity" 2 None = Ok M).
  { unfold gammai_csr. cbn [srow scol flat_S]. change (check_distance_matrix_shape (Sparse 3 3)) with (Ok tt).
    cbn [bind]. change (check_valid_metric_parameter "similarity") with (Ok tt). cbn [bind]. unfold gammai_sparse.
    rewrite (unit_diag_ok flat_S 3 flat_w eq_refl eq_refl HS) by lia. eexists. reflexivity. }
  destruct E as (M & E). exists M. split; [exact E|]. destruct ratio_nan as (_ & GN). intros i j Hi Hj Hij.
  assert (R : forall k, 2 < row_nnz flat_S k) by (intros k; cbv; lia).
  apply (C171_unweighted_graph ratio_gam' (fun x => x) flat_S 3 flat_w "similarity" 2 M i j); auto.
  exists (/ 2)%R. intros a b x _ _ Nab. unfold flat_w. destruct (Nat.eqb_spec a b); [contradiction|]. congruence.
Qed.

Print Assumptions C171_nan_everywhere.
Print Assumptions C171_nan_exactly.
Print Assumptions C171_unweighted_graph.
