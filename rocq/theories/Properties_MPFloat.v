(** Properties C142 and C143: what float64 arithmetic guarantees for Mutual
    Proximity with parametric distributions (global_scaling.py:415-925) and for
    cosine distances (distances.py:28-37), for every input whatsoever.

    np.sum is any function.  The distribution functions of scipy are any
    functions with values in [0, 1] or NaN. *)
From Coq Require Import String.
From Coq Require Import ZArith Reals Lra List Arith Lia Bool.
From Flocq Require Import Core BinarySingleNaN.
From Verif Require Import Py Num NumT Arr S_Neighbors S_LS S_MP S_MPDist S_MPFloat M_IO M_Hubness M_MPEmpiric M_Approx M_MPDist M_Dist.
From Verif Require Import P_F64 P_LS3 P_MPEmpiric P_MPDist P_MPDist2 P_LSFloat S_LSFloat Properties_LSFloat.
Import ListNotations.
Local Open Scope nat_scope.

Lemma uon_finite (x : f64) : nle n0 x = true -> nle x n1 = true -> is_finite x = true /\ (0 <= B2R x <= 1)%R.
Proof.
  intros H0 H1. assert (F : is_finite x = true) by (destruct x as [s|[|]| |s m e H]; try discriminate; reflexivity).
  destruct n0_f64 as (Z0 & F0). destruct n1_f64 as (Z1 & F1).
  apply nle_B2R in H0; auto. apply nle_B2R in H1; auto. split; [exact F|lra].
Qed.
Lemma uon_compl (x : f64) : unit_or_nan x -> unit_or_nan (nsub n1 x).
Proof.
  intros [H|(H0 & H1)]; [left; destruct x; try discriminate; reflexivity|]. right. now apply one_minus.
Qed.
Lemma uon_mul (x y : f64) : unit_or_nan x -> unit_or_nan y -> unit_or_nan (nmul x y).
Proof.
  intros [H|(H0 & H1)] Hy; [left; destruct x; try discriminate; reflexivity|].
  destruct Hy as [H|(G0 & G1)]; [left; destruct y; try discriminate; now destruct x|]. right.
  destruct (uon_finite x H0 H1) as (Fx & Rx), (uon_finite y G0 G1) as (Fy & Ry).
  assert (U : (0 <= B2R x * B2R y <= 1)%R) by (split; [apply Rmult_le_pos; lra|rewrite <- (Rmult_1_l 1); apply Rmult_le_compat; lra]).
  apply rnd_unit in U. destruct n0_f64 as (Z0 & F0). destruct n1_f64 as (Z1 & F1).
  destruct (mul_cases x y Fx Fy) as (_ & [(_ & F & R)|(B & _)]).
  - split; apply nle_B2R; auto; lra.
  - exfalso. rewrite Rabs_pos_eq in B by lra. pose proof bpow1024_big. lra.
Qed.
Lemma uon_same (w v : f64) : same w v = true -> unit_or_nan v -> unit_or_nan w.
Proof. intros H [V|V]; [left|right]; now apply (same_range w v H). Qed.
Lemma same_add0_r (v : f64) : same (nadd v n0) v = true.
Proof. apply maybe0_same. right. now left. Qed.
Lemma same_add0_l (v : f64) : same (nadd n0 v) v = true.
Proof. apply maybe0_same. right. now right. Qed.
Lemma uon_0 : unit_or_nan n0. Proof. right. split; reflexivity. Qed.
Lemma uon_1 : unit_or_nan n1. Proof. right. split; reflexivity. Qed.
Lemma uon_self metric : unit_or_nan (mp_self metric).
Proof. unfold mp_self. destruct (is_sim metric); [apply uon_1|apply uon_0]. Qed.

Lemma mirror_mp metric n (v : nat -> nat -> f64) : (forall i j, unit_or_nan (v i j)) ->
  mp_matrix n (if is_sim metric then n1 else n0) (mirror metric n v).
Proof.
  intros Hv. destruct (mirror_shape metric n v) as (R & C). split; [exact R|]. split; [exact C|]. split; [|split].
  - intros i Hi. rewrite mirror_at by assumption. now rewrite Nat.eqb_refl.
  - intros i j Hi Hj. rewrite !mirror_at by assumption. rewrite (Nat.eqb_sym j i).
    destruct (Nat.eqb_spec i j); [apply same_refl|].
    destruct (Nat.ltb_spec i j), (Nat.ltb_spec j i); try lia.
    + eapply same_trans; [apply same_add0_r|]. rewrite same_sym. apply same_add0_l.
    + eapply same_trans; [apply same_add0_l|]. rewrite same_sym. apply same_add0_r.
  - intros i j Hi Hj. rewrite mirror_at by assumption.
    destruct (i =? j); [apply uon_self|]. destruct (i <? j).
    + apply (uon_same _ (v i j)); [apply same_add0_r|apply Hv].
    + apply (uon_same _ (v j i)); [apply same_add0_l|apply Hv].
Qed.

Lemma gi_uon (cdf sf : f64 -> f64 -> f64 -> f64) metric d mi si mj sj :
  (forall x m s, unit_or_nan (cdf x m s)) -> (forall x m s, unit_or_nan (sf x m s)) ->
  unit_or_nan (gi_value cdf sf metric d mi si mj sj).
Proof.
  intros Hc Hs. unfold gi_value. destruct (is_sim metric); [now apply uon_mul|apply uon_compl; now apply uon_mul].
Qed.
Lemma ga_uon (gam : f64 -> f64 -> f64) metric x y a b a' b' :
  (forall a x, unit_or_nan (gam a x)) -> unit_or_nan (ga_value gam metric x y a b a' b').
Proof.
  intros Hg. unfold ga_value, gamcdf. destruct (is_sim metric); [apply uon_mul; apply Hg|].
  apply uon_compl, uon_mul; apply uon_compl, Hg.
Qed.

(** ** C142, dense matrices.  No condition on the entries of D: they may be
    infinite, NaN, negative or not symmetric. *)
Theorem C142_dense :
  forall vsum (cdf sf : f64 -> f64 -> f64 -> f64) (gam : f64 -> f64 -> f64) (D : arr2 f64) metric test,
    (forall x m s, unit_or_nan (cdf x m s)) -> (forall x m s, unit_or_nan (sf x m s)) ->
    (forall a x, unit_or_nan (gam a x)) ->
    (forall sample_size M, gaussi vsum cdf sf D metric sample_size test None = Ok M ->
       mp_matrix (nrow D) (if is_sim metric then n1 else n0) M) /\
    (forall M, gammai vsum gam D metric test = Ok M ->
       mp_matrix (nrow D) (if is_sim metric then n1 else n0) M).
Proof.
  intros vsum cdf sf gam D metric test Hc Hs Hg. split.
  - intros ss M H. apply gaussi_inv in H as (_ & _ & _ & ->). apply mirror_mp. intros i j. now apply gi_uon.
  - intros M H. apply gammai_inv in H as (_ & _ & ->). apply mirror_mp. intros i j. now apply ga_uon.
Qed.

(** sampled columns: all values in range, [self] where an object meets itself *)
Theorem C142_sample :
  forall vsum (cdf sf : f64 -> f64 -> f64 -> f64) (D : arr2 f64) idx metric test M,
    (forall x m s, unit_or_nan (cdf x m s)) -> (forall x m s, unit_or_nan (sf x m s)) ->
    gaussi_sample vsum cdf sf D idx metric test = Ok M ->
    ncol M = length idx /\
    (forall a b, a < nrow M -> b < ncol M -> unit_or_nan (at2 M a b)) /\
    (forall a b, a < nrow M -> b < ncol M ->
       match test with None => a | Some t => nth a t 0 end = nth b idx 0 ->
       at2 M a b = if is_sim metric then n1 else n0).
Proof.
  intros vsum cdf sf D idx metric test M Hc Hs H.
  apply gaussi_sample_inv in H as (_ & HL & _ & _ & H).
  assert (A : forall rows a b, In a rows -> b < ncol D ->
     unit_or_nan (at2 (gaussi_rows vsum cdf sf metric idx rows D) a b) /\
     (a = nth b idx 0 -> at2 (gaussi_rows vsum cdf sf metric idx rows D) a b = if is_sim metric then n1 else n0)).
  { intros rows a b Ha Hb. rewrite gaussi_rows_at by assumption. split.
    - destruct (a =? nth b idx 0); [apply uon_self|]. now apply gi_uon.
    - intros ->. now rewrite Nat.eqb_refl. }
  destruct test as [t|].
  - destruct H as (Ht & ->). cbn [nrow ncol at2]. split; [congruence|]. split; intros a b Ha Hb.
    + apply A; [now apply nth_In|exact Hb].
    + intros E. apply A; [now apply nth_In|exact Hb|exact E].
  - subst M. destruct (gaussi_rows_shape vsum cdf sf metric idx (seq 0 (nrow D)) D) as (-> & ->).
    split; [congruence|]. split; intros a b Ha Hb.
    + apply A; [apply in_seq; lia|exact Hb].
    + intros E. apply A; [apply in_seq; lia|exact Hb|exact E].
Qed.

(** sparse similarities, Gaussian: every value of the result is in range and mirrored *)
Lemma lil_uon (v : f64) : unit_or_nan v -> unit_or_nan (oval (lil v)).
Proof. unfold lil. intros H. destruct (nonzero v); [exact H|apply uon_0]. Qed.
Lemma sp_plus_same (v : f64) :
  same (oval (sp_plus (lil v) None)) v = true /\ same (oval (sp_plus None (lil v))) v = true.
Proof.
  unfold lil, nonzero. destruct (neq v n0) eqn:E; cbn [negb].
  - cbn [sp_plus oval]. rewrite same_sym. unfold same. now rewrite E.
  - cbn [sp_plus oval]. unfold nonzero.
    assert (Z : forall w : f64, same w v = true -> neq w n0 = false).
    { intros w H. unfold same in H. apply orb_true_iff in H. destruct H as [H|H].
      - rewrite (cl_eq _ _ _ f64_cmp) in *. destruct (f2x w), (f2x v); simpl in *; try discriminate; auto.
        destruct (Req_EM_T r r0); [subst; exact E|discriminate].
      - apply andb_true_iff in H as (H & _). destruct w; try discriminate; reflexivity. }
    rewrite (Z _ (same_add0_r v)), (Z _ (same_add0_l v)). cbn [negb]. split; [apply same_add0_r|apply same_add0_l].
Qed.

Theorem C142_sparse :
  forall vsum (cdf : f64 -> f64 -> f64 -> f64) (sp : smat f64) metric ss mn test M,
    (forall x m s, unit_or_nan (cdf x m s)) ->
    gaussi_csr vsum cdf sp metric ss mn test = Ok M ->
    srow M = srow sp /\ scol M = scol sp /\
    (forall i, i < srow sp -> neq (sval M i i) n1 = true) /\
    (forall i j, i < srow sp -> j < srow sp -> unit_or_nan (sval M i j)) /\
    (forall i j, i < srow sp -> j < srow sp -> same (sval M i j) (sval M j i) = true).
Proof.
  intros vsum cdf sp metric ss mn test M Hc H. unfold gaussi_csr in H.
  apply bind_ok_inv in H as ([] & _ & H). apply bind_ok_inv in H as ([] & _ & H).
  unfold gaussi_sparse in H. apply bind_ok_inv in H as ([] & _ & H). cbv zeta in H. injection H as <-.
  cbn [srow scol].
  set (tr := train_rows (srow sp) test).
  assert (G : forall i j, unit_or_nan (gis_value vsum cdf sp tr i j)).
  { intros i j. unfold gis_value. apply uon_mul; destruct (neq _ n0); auto using uon_0. }
  match goal with |- context [SMat (srow sp) (scol sp) ?f] => set (F := f) end.
  assert (SV : forall i j, sval (SMat (srow sp) (scol sp) F) i j = oval (F i j)) by reflexivity.
  split; [reflexivity|]. split; [reflexivity|]. split; [|split].
  - intros i Hi. rewrite SV; unfold F; rewrite Nat.leb_refl, Nat.eqb_refl. vm_compute. reflexivity.
  - intros i j Hi Hj. rewrite !SV. unfold F. destruct (Nat.lt_trichotomy i j) as [Hl|[->|Hl]].
    + destruct (Nat.leb_spec i j); [|lia]. destruct (Nat.leb_spec j i); [lia|]. destruct (Nat.eqb_spec i j); [lia|].
      eapply uon_same; [apply sp_plus_same|apply G].
    + rewrite Nat.leb_refl, Nat.eqb_refl. right. split; vm_compute; reflexivity.
    + destruct (Nat.leb_spec i j); [lia|]. destruct (Nat.leb_spec j i); [|lia]. destruct (Nat.eqb_spec j i); [lia|].
      eapply uon_same; [apply sp_plus_same|apply G].
  - intros i j Hi Hj. rewrite !SV. unfold F. destruct (Nat.lt_trichotomy i j) as [Hl|[->|Hl]]; [|apply same_refl|].
    + destruct (Nat.leb_spec i j); [|lia]. destruct (Nat.leb_spec j i); [lia|]. destruct (Nat.eqb_spec i j); [lia|].
      eapply same_trans; [apply sp_plus_same|]. rewrite same_sym. apply sp_plus_same.
    + destruct (Nat.leb_spec i j); [lia|]. destruct (Nat.leb_spec j i); [|lia]. destruct (Nat.eqb_spec j i); [lia|].
      eapply same_trans; [apply sp_plus_same|]. rewrite same_sym. apply sp_plus_same.
Qed.

(** ** C143: cosine distances in float64: for every matrix of vectors and every
    way of summing, the diagonal is 0, the matrix is symmetric, and every entry
    is NaN or not negative *)
Theorem C143_cosine_float64 :
  forall vsum (X : arr2 f64),
    let D := cosine_distance vsum X in
    nrow D = nrow X /\ ncol D = nrow X /\
    (forall i, i < nrow X -> neq (at2 D i i) n0 = true) /\
    (forall i j, i < nrow X -> j < nrow X -> same (at2 D i j) (at2 D j i) = true) /\
    (forall i j, i < nrow X -> j < nrow X -> nisnan (at2 D i j) = true \/ nle n0 (at2 D i j) = true).
Proof.
  intros vsum X D. split; [reflexivity|]. split; [reflexivity|]. subst D. unfold cosine_distance. cbv zeta.
  set (C := mask_value _ _ _).
  assert (A : forall i j, i < j -> same (at2 (zip2 nadd (triu1 C) (transpose (triu1 C))) i j) (at2 C i j) = true /\
                          same (at2 (zip2 nadd (triu1 C) (transpose (triu1 C))) j i) (at2 C i j) = true).
  { intros i j Hij. cbn [zip2 triu1 transpose at2]. destruct (Nat.ltb_spec i j); [|lia]. destruct (Nat.ltb_spec j i); [lia|].
    split; [apply same_add0_r|apply same_add0_l]. }
  assert (P : forall i j, nisnan (at2 C i j) = true \/ nle n0 (at2 C i j) = true).
  { intros i j. unfold C. cbn [mask_value at2]. destruct (nlt _ n0) eqn:E; [right; reflexivity|].
    remember (nsub n1 (vdot vsum (ncol X) _ _)) as v. rewrite (cl_lt _ _ _ f64_cmp), (cl_0 _ _ _ f64_cmp) in E.
    rewrite (cl_nan _ _ _ f64_cmp), (cl_le _ _ _ f64_cmp), (cl_0 _ _ _ f64_cmp).
    destruct (f2x v); simpl in *; auto; try discriminate. right. destruct (Rlt_dec r 0); [discriminate|].
    destruct (Rle_dec 0 r); [reflexivity|lra]. }
  assert (Q : forall w v : f64, same w v = true -> nisnan v = true \/ nle n0 v = true -> nisnan w = true \/ nle n0 w = true).
  { intros w v H. unfold same in H. apply orb_true_iff in H. destruct H as [H|H].
    - rewrite (cl_eq _ _ _ f64_cmp) in H. rewrite !(cl_nan _ _ _ f64_cmp), !(cl_le _ _ _ f64_cmp), (cl_0 _ _ _ f64_cmp).
      destruct (f2x w), (f2x v); simpl in *; try discriminate; auto. destruct (Req_EM_T r r0); [subst; auto|discriminate].
    - apply andb_true_iff in H as (H & _). auto. }
  assert (Dg : forall i, at2 (zip2 nadd (triu1 C) (transpose (triu1 C))) i i = nadd n0 n0).
  { intros i. cbn [zip2 triu1 transpose at2]. now rewrite Nat.ltb_irrefl. }
  split; [|split].
  - intros i Hi. rewrite Dg. reflexivity.
  - intros i j Hi Hj. destruct (Nat.lt_trichotomy i j) as [Hl|[->|Hl]]; [|apply same_refl|].
    + eapply same_trans; [apply (A i j Hl)|]. rewrite same_sym. apply (A i j Hl).
    + eapply same_trans; [apply (A j i Hl)|]. rewrite same_sym. apply (A j i Hl).
  - intros i j Hi Hj. destruct (Nat.lt_trichotomy i j) as [Hl|[->|Hl]].
    + eapply Q; [apply (A i j Hl)|apply P].
    + rewrite Dg. right. reflexivity.
    + eapply Q; [apply (A j i Hl)|apply P].
Qed.

(** ** cases: a matrix with a NaN and an infinite entry, and functions with
    values 1/2 (and NaN for NaN) *)
Definition half_or_nan (x : f64) : f64 := if nisnan x then nnan else ndiv n1 (nofZ 2).
Definition sum64 (l : list f64) : f64 := fold_left nadd l n0.
Definition odd3 : arr2 f64 := Arr2 3 3 (fun i j => nth (3 * i + j) [n0; n1; nnan; nofZ (-4); n0; ninf; n1; n1; n0] n0).
Example C142_case :
  (forall x m s : f64, unit_or_nan (half_or_nan x)) /\
  is_ok (gaussi sum64 (fun x _ _ => half_or_nan x) (fun x _ _ => half_or_nan x) odd3 "distance" 0 None None) = true /\
  is_ok (gammai sum64 (fun _ x => half_or_nan x) odd3 "similarity" None) = true /\
  is_ok (gaussi_sample sum64 (fun x _ _ => half_or_nan x) (fun x _ _ => half_or_nan x) odd3 [2; 0; 1] "distance" (Some [1])) = true /\
  is_ok (gaussi_csr sum64 (fun x _ _ => half_or_nan x)
           (SMat 2 2 (fun i j => if i =? j then Some (n1 (V:=f64)) else Some (half_or_nan n0))) "similarity" 0 0 None) = true.
Proof.
  split; [|vm_compute; auto].
  intros x _ _. unfold half_or_nan. destruct (nisnan x); [left; reflexivity|right; split; reflexivity].
Qed.
(** a zero vector: its distances are NaN; the others are numbers *)
Example C143_case :
  let D := cosine_distance sum64 (Arr2 3 2 (fun i j => nth (2 * i + j) [n1; n1; n0; n0; nofZ (-3); n1 (V:=f64)] n0)) in
  nisnan (at2 D 0 1) = true /\ nisnan (at2 D 2 1) = true /\ nlt n1 (at2 D 0 2) = true.
Proof. vm_compute. auto. Qed.

Print Assumptions C142_dense.
Print Assumptions C142_sample.
Print Assumptions C142_sparse.
Print Assumptions C143_cosine_float64.
