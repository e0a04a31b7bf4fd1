(** NICDM over exact numbers. *)
From Coq Require Import String.
From Coq Require Import ZArith Reals Lra List Arith Lia Bool Permutation.
From Verif Require Import Py Num NumT Arr Sort Conc S_Neighbors S_LS M_IO M_Hubness M_SNN M_LS.
From Verif Require Import P_Neighbors P_Hubness P_MPEmpiric P_SNN P_LS P_LS2 P_LS3.
Import ListNotations.
Local Open Scope nat_scope.

(** ** the sum of the k smallest is determined *)
Lemma max_split (s : list R) : s <> [] -> exists m s1, Permutation s (m :: s1) /\ forall x, In x s1 -> (x <= m)%R.
Proof.
  induction s as [|a s IH]; [congruence|]. intros _. destruct s as [|b s].
  - exists a, []. split; [reflexivity|]. intros x [].
  - destruct IH as (m & s1 & P & H); [discriminate|]. destruct (Rle_dec a m) as [L|L].
    + exists m, (a :: s1). split; [rewrite P; apply perm_swap|]. intros x [<-|Hx]; auto.
    + exists a, (m :: s1). split; [now rewrite P|]. intros x [<-|Hx]; [lra|]. specialize (H x Hx). lra.
Qed.

Lemma least_sum (s' : list R) : forall s rest rest', Permutation (s ++ rest) (s' ++ rest') ->
  length s = length s' -> (forall x y, In x s -> In y rest -> (x <= y)%R) -> (rsum s <= rsum s')%R.
Proof.
  induction s' as [|x s' IH]; intros s rest rest' P HL H.
  - destruct s; [simpl; lra|discriminate].
  - assert (Hx : In x (s ++ rest)).
    { eapply Permutation_in; [symmetry; exact P|]. now left. }
    apply in_app_iff in Hx. destruct Hx as [Hx|Hx].
    + apply in_split in Hx. destruct Hx as (a & b & ->).
      assert (P2 : Permutation ((a ++ b) ++ rest) (s' ++ rest')).
      { apply (Permutation_cons_inv (a := x)). rewrite <- P. rewrite <- !app_assoc. simpl. apply Permutation_middle. }
      assert (S1 : (rsum (a ++ b) <= rsum s')%R).
      { apply (IH _ _ _ P2).
        - rewrite app_length in *. simpl in HL. lia.
        - intros u y Hu. apply H. apply in_app_iff in Hu. apply in_app_iff. simpl. tauto. }
      rewrite rsum_app in *. simpl. change (fold_right Rplus 0%R) with rsum. lra.
    + destruct (max_split s) as (m & s1 & Pm & Hm).
      { destruct s; [discriminate|congruence]. }
      assert (Hm' : In m s) by (eapply Permutation_in; [symmetry; exact Pm|now left]).
      pose proof (H m x Hm' Hx) as Hmx.
      apply in_split in Hx. destruct Hx as (a & b & ->).
      assert (P2 : Permutation (s1 ++ (m :: a ++ b)) (s' ++ rest')).
      { apply (Permutation_cons_inv (a := x)). change (x :: s' ++ rest') with ((x :: s') ++ rest'). rewrite <- P.
        rewrite Pm. change ((m :: s1) ++ a ++ x :: b) with (m :: (s1 ++ a ++ x :: b)).
        transitivity (x :: m :: s1 ++ a ++ b); [apply perm_skip; symmetry; apply Permutation_middle|].
        rewrite perm_swap. apply perm_skip. rewrite !app_assoc. apply Permutation_middle. }
      assert (S1 : (rsum s1 <= rsum s')%R).
      { apply (IH _ _ _ P2).
        - apply Permutation_length in Pm. simpl in *. lia.
        - intros u y Hu [<-|Hy]; [now apply Hm|]. apply H.
          + eapply Permutation_in; [symmetry; exact Pm|now right].
          + apply in_app_iff in Hy. apply in_app_iff. simpl. tauto. }
      rewrite (rsum_perm _ _ Pm). simpl. change (fold_right Rplus 0%R) with rsum. lra.
Qed.

Definition fin_of (x : xr) : R := match x with XFin r => r | _ => 0%R end.

Lemma fin_list (l : list xr) : (forall x, In x l -> xisfin x = true) -> l = map XFin (map fin_of l).
Proof.
  induction l as [|x l IH]; [reflexivity|]. intros H. simpl. rewrite <- IH by (intros; apply H; now right).
  f_equal. specialize (H x (or_introl eq_refl)). now destruct x.
Qed.

Lemma k_smallest_incl (l s : list xr) k x : k_smallest l k s -> In x s -> In x l.
Proof. intros (_ & rest & P & _) H. eapply Permutation_in; [symmetry; exact P|]. apply in_app_iff. now left. Qed.

Lemma k_smallest_sum (l : list xr) k s s' : (forall x, In x l -> xisfin x = true) ->
  k_smallest l k s -> k_smallest l k s' -> rsum (map fin_of s) = rsum (map fin_of s').
Proof.
  intros Hf.
  assert (A : forall s s', k_smallest l k s -> k_smallest l k s' -> (rsum (map fin_of s) <= rsum (map fin_of s'))%R).
  { clear s s'. intros s s' (L1 & r1 & P1 & O1) (L2 & r2 & P2 & _).
    apply (least_sum _ _ (map fin_of r1) (map fin_of r2)).
    - rewrite <- !map_app. apply Permutation_map. now rewrite <- P1, <- P2.
    - rewrite !map_length. congruence.
    - intros x y Hx Hy. apply in_map_iff in Hx, Hy. destruct Hx as (u & <- & Hu), Hy as (w & <- & Hw).
      specialize (O1 u w Hu Hw).
      assert (Fu : xisfin u = true) by (apply Hf; eapply Permutation_in; [symmetry; exact P1|apply in_app_iff; auto]).
      assert (Fw : xisfin w = true) by (apply Hf; eapply Permutation_in; [symmetry; exact P1|apply in_app_iff; auto]).
      destruct u, w; try discriminate. simpl in *. destruct (Rlt_dec r0 r); [discriminate|lra]. }
  intros H1 H2. apply Rle_antisym; auto.
Qed.

Lemma k_smallest_scale c (l s : list xr) k : (0 < c)%R -> k_smallest l k s -> k_smallest (map (xmul (XFin c)) l) k (map (xmul (XFin c)) s).
Proof.
  intros Hc (L & rest & P & O). split; [now rewrite map_length|]. exists (map (xmul (XFin c)) rest).
  split; [rewrite <- map_app; now apply Permutation_map|].
  intros x y Hx Hy. apply in_map_iff in Hx, Hy. destruct Hx as (u & <- & Hu), Hy as (w & <- & Hw).
  change (xlt (xmul (XFin c) w) (xmul (XFin c) u) = false). rewrite xmul_lt by assumption. now apply O.
Qed.

Lemma vmean_fin (s : list xr) : s <> [] -> (forall x, In x s -> xisfin x = true) ->
  vmean xsum s = XFin (rsum (map fin_of s) / INR (length s)).
Proof.
  intros Hs Hf. unfold vmean. rewrite (fin_list s Hf) at 1. rewrite xsum_fin. simpl.
  unfold nofnat. simpl. rewrite <- INR_IZR_INZ. destruct (Req_EM_T _ 0) as [E|]; [|reflexivity].
  exfalso. apply (not_0_INR (length s)); [destruct s; [congruence|discriminate]|assumption].
Qed.

(** radius of NICDM: the mean of the k smallest values towards other training points *)
Lemma nicdm_radius_xr part (D : arr2 xr) cols k i : part_ok part -> NoDup cols ->
  (forall x, In x (others D cols i) -> xisfin x = true) -> 0 < k <= length (others D cols i) ->
  exists s, nicdm_radius xsum part (fill_diagonal D XPInf) cols (Z.of_nat k) i = Ok (XFin (rsum (map fin_of s) / INR k)) /\
    k_smallest (others D cols i) k s.
Proof.
  intros PO Hn Hf Hk. destruct (nicdm_radius_spec xr_cmp part PO xsum D cols k i Hn Hf (proj2 Hk)) as (s & E & K & Hin).
  assert (L : length s = k) by apply K.
  exists s. split; [|assumption]. change (fill_diagonal D XPInf) with (fill_diagonal D ninf). rewrite E. f_equal.
  rewrite vmean_fin; [now rewrite L| |].
  - intros ->. simpl in L. lia.
  - intros x Hx. now apply Hf, Hin.
Qed.

Lemma nicdm_radii_xr part (D : arr2 xr) k test : part_ok part -> nrow D = ncol D -> off_finite D ->
  0 < k < length (training (nrow D) test) ->
  exists r : nat -> R, nicdm_radii xsum part D (Z.of_nat k) "distance" test = Ok (map (fun i => XFin (r i)) (seq 0 (nrow D))) /\
    forall i, i < nrow D -> exists s, k_smallest (others D (training (nrow D) test) i) k s /\ r i = (rsum (map fin_of s) / INR k)%R.
Proof.
  intros PO Hsq Hf Hk. set (n := nrow D) in *. set (cols := training n test) in *.
  assert (A : forall i, i < n -> exists s, nicdm_radius xsum part (fill_diagonal D XPInf) cols (Z.of_nat k) i = Ok (XFin (rsum (map fin_of s) / INR k)) /\
    k_smallest (others D cols i) k s).
  { intros i Hi. apply nicdm_radius_xr; auto.
    - apply training_NoDup.
    - intros x Hx. apply others_in in Hx. destruct Hx as (j & Hj & Hne & ->). apply Hf; auto.
    - split; [lia|]. apply others_len_lt. fold n cols. lia. }
  exists (fun i => match nicdm_radius xsum part (fill_diagonal D XPInf) cols (Z.of_nat k) i with Ok v => fin_of v | _ => 0%R end).
  split.
  - unfold nicdm_radii. rewrite (proj2 (check_shape_ok D) Hsq). cbn [bind].
    change (check_valid_metric_parameter "distance") with (@Ok unit tt). cbn [bind]. change (guard (is_sim "distance") NotImplementedError) with (@Ok unit tt).
    cbn [bind]. fold n. rewrite training_eq. fold cols.
    assert (E : forall l, (forall i, In i l -> i < n) -> mapM (nicdm_radius xsum part (fill_diagonal D ninf) cols (Z.of_nat k)) l =
      Ok (map (fun i => XFin match nicdm_radius xsum part (fill_diagonal D XPInf) cols (Z.of_nat k) i with Ok v => fin_of v | _ => 0%R end) l)).
    { induction l as [|i l IH]; [reflexivity|]. intros Hl. cbn [mapM map]. 
      rewrite IH by (intros; apply Hl; now right).
      destruct (A i (Hl i (or_introl eq_refl))) as (s & E & _). change (fill_diagonal D ninf) with (fill_diagonal D XPInf). rewrite E. reflexivity. }
    apply E. intros i Hi. apply in_seq in Hi. lia.
  - intros i Hi. destruct (A i Hi) as (s & E & K). exists s. split; [assumption|]. now rewrite E.
Qed.

Lemma rsum_fin_scale c s : (forall x, In x s -> xisfin x = true) -> rsum (map fin_of (map (xmul (XFin c)) s)) = (c * rsum (map fin_of s))%R.
Proof.
  intros H. rewrite map_map, <- rsum_mult. apply rsum_ext. intros x Hx. specialize (H x Hx). now destruct x.
Qed.

(** the geometric mean: [exp(mean(log r))] on reals, 0 when a radius is zero, NaN when one is negative *)
Lemma xsum_nan l : In XNaN l -> xsum l = XNaN.
Proof.
  induction l as [|x l IH]; [intros []|]. intros [->|H]; [reflexivity|].
  change (xsum (x :: l)) with (xadd x (xsum l)). rewrite IH by assumption. now destruct x.
Qed.
Lemma xsum_ninf_or l : (forall x, In x l -> x = XNInf \/ xisfin x = true) -> xsum l = XNInf \/ exists r, xsum l = XFin r.
Proof.
  induction l as [|x l IH]; [right; now exists 0%R|]. intros H. change (xsum (x :: l)) with (xadd x (xsum l)).
  destruct (IH (fun y Hy => H y (or_intror Hy))) as [-> | (r & ->)]; destruct (H x (or_introl eq_refl)) as [-> | F];
    try (destruct x; try discriminate; simpl); simpl; eauto.
Qed.
Lemma xsum_ninf l : (forall x, In x l -> x = XNInf \/ xisfin x = true) -> In XNInf l -> xsum l = XNInf.
Proof.
  induction l as [|x l IH]; [intros _ []|]. intros H Hin. change (xsum (x :: l)) with (xadd x (xsum l)).
  destruct Hin as [->|Hin].
  - destruct (xsum_ninf_or l (fun y Hy => H y (or_intror Hy))) as [-> | (r & ->)]; reflexivity.
  - rewrite (IH (fun y Hy => H y (or_intror Hy)) Hin). destruct (H x (or_introl eq_refl)) as [-> | F]; [reflexivity|now destruct x].
Qed.

Definition lnx (r : R) : xr := xln (XFin r).
Lemma lnx_pos r : (0 < r)%R -> lnx r = XFin (ln r).
Proof. intros H. unfold lnx. simpl. destruct (Rlt_dec r 0); [lra|]. destruct (Req_EM_T r 0); [lra|reflexivity]. Qed.

Lemma geomean_pos (r : list R) : r <> [] -> (forall x, In x r -> 0 < x)%R ->
  local_geomean xexp xln xsum (map XFin r) = XFin (exp (rsum (map ln r) / INR (length r))).
Proof.
  intros Hne Hp. unfold local_geomean. rewrite map_map.
  replace (map (fun x => xln (XFin x)) r) with (map XFin (map ln r)).
  - rewrite xsum_fin. rewrite map_length. unfold nofnat. simpl. rewrite <- INR_IZR_INZ.
    destruct (Req_EM_T _ 0) as [E|]; [|reflexivity]. exfalso.
    apply (not_0_INR (length r)); [destruct r; [congruence|discriminate]|assumption].
  - rewrite map_map. apply map_ext_in. intros x Hx. symmetry. now apply lnx_pos, Hp.
Qed.

Lemma geomean_neg (r : list R) x : In x r -> (x < 0)%R -> local_geomean xexp xln xsum (map XFin r) = XNaN.
Proof.
  intros Hin Hx. unfold local_geomean. rewrite xsum_nan; [reflexivity|]. rewrite map_map. apply in_map_iff.
  exists x. split; [|assumption]. simpl. now destruct (Rlt_dec x 0).
Qed.
Lemma geomean_zero (r : list R) : (forall x, In x r -> 0 <= x)%R -> In 0%R r -> local_geomean xexp xln xsum (map XFin r) = XFin 0.
Proof.
  intros Hp Hin. unfold local_geomean. rewrite xsum_ninf.
  - simpl. destruct (Rlt_dec _ 0) as [L|L]; [exfalso|reflexivity]. revert L. apply Rle_not_lt. apply IZR_le. lia.
  - intros y Hy. rewrite map_map in Hy. apply in_map_iff in Hy. destruct Hy as (x & <- & Hx). simpl.
    specialize (Hp x Hx). destruct (Rlt_dec x 0); [lra|]. destruct (Req_EM_T x 0); auto.
  - rewrite map_map. apply in_map_iff. exists 0%R. split; [|assumption]. simpl.
    destruct (Rlt_dec 0 0); [lra|]. now destruct (Req_EM_T 0 0).
Qed.

Lemma sign_cases (r : list R) : (forall x, In x r -> 0 < x)%R \/ (exists x, In x r /\ (x < 0)%R) \/
  ((forall x, In x r -> 0 <= x)%R /\ In 0%R r).
Proof.
  induction r as [|a r IH]; [left; intros x []|].
  destruct (Rlt_dec a 0); [right; left; exists a; split; [now left|assumption]|].
  destruct IH as [H|[(x & Hx & L)|(H & H0)]].
  - destruct (Req_EM_T a 0) as [->|].
    + right. right. split; [|now left]. intros x [<-|Hx]; [lra|]. specialize (H x Hx). lra.
    + left. intros x [<-|Hx]; [lra|auto].
  - right. left. exists x. split; [now right|assumption].
  - right. right. split; [|now right]. intros x [<-|Hx]; [lra|auto].
Qed.

Lemma geomean_scale c (r : list R) : r <> [] -> (0 < c)%R ->
  local_geomean xexp xln xsum (map XFin (map (Rmult c) r)) = xmul (XFin c) (local_geomean xexp xln xsum (map XFin r)).
Proof.
  intros Hne Hc. destruct (sign_cases r) as [H|[(x & Hx & L)|(H & H0)]].
  - rewrite !geomean_pos; auto.
    + simpl. f_equal. rewrite map_length, map_map.
      rewrite (rsum_ext _ (fun x => ln c + ln x)%R) by (intros x Hx; apply ln_mult; auto).
      rewrite (rsum_plus (fun _ => ln c) ln), rsum_const.
      assert (Hn : INR (length r) <> 0%R) by (apply not_0_INR; destruct r; [congruence|discriminate]).
      replace ((INR (length r) * ln c + rsum (map ln r)) / INR (length r))%R with (ln c + rsum (map ln r) / INR (length r))%R by (field; assumption).
      rewrite exp_plus, exp_ln by assumption. reflexivity.
    + destruct r; [congruence|discriminate].
    + intros y Hy. apply in_map_iff in Hy. destruct Hy as (x & <- & Hx). apply Rmult_lt_0_compat; auto.
  - rewrite (geomean_neg r x) by assumption. apply (geomean_neg _ (c * x)%R); [now apply in_map|nra].
  - rewrite (geomean_zero r) by assumption. rewrite geomean_zero.
    + simpl. f_equal. ring.
    + intros y Hy. apply in_map_iff in Hy. destruct Hy as (x & <- & Hx). specialize (H x Hx). nra.
    + apply in_map_iff. exists 0%R. split; [ring|assumption].
Qed.

(** value of a pair, scaled *)
Lemma nicdm_val_scale c g d ri rj : (0 < c)%R -> (g = XNaN \/ exists y, g = XFin y) ->
  nicdm_val (xmul (XFin c) g) (XFin (c * d)) (XFin (c * ri)) (XFin (c * rj)) = xmul (XFin c) (nicdm_val g (XFin d) (XFin ri) (XFin rj)).
Proof.
  intros Hc [-> | (y & ->)]; [reflexivity|]. unfold nicdm_val. simpl.
  assert (Hcc : (0 < c * c)%R) by nra.
  replace (c * ri * (c * rj))%R with ((c * c) * (ri * rj))%R by ring.
  destruct (Rlt_dec (ri * rj) 0) as [L|L]; destruct (Rlt_dec (c * c * (ri * rj)) 0) as [L'|L']; try reflexivity; try (exfalso; nra).
  assert (Es : sqrt (c * c * (ri * rj)) = (c * sqrt (ri * rj))%R).
  { rewrite sqrt_mult by lra. rewrite sqrt_square by lra. reflexivity. }
  rewrite Es. simpl. destruct (Req_EM_T (sqrt (ri * rj)) 0) as [E|E].
  - destruct (Req_EM_T (c * sqrt (ri * rj)) 0) as [E'|E']; [|exfalso; apply E'; rewrite E; ring].
    replace (c * y * (c * d))%R with (c * c * (y * d))%R by ring. rewrite rsgn_mult by assumption.
    destruct (rsgn (y * d)); simpl; rewrite ?rsgn_pos by assumption; reflexivity.
  - destruct (Req_EM_T (c * sqrt (ri * rj)) 0) as [E'|E'].
    + exfalso. apply Rmult_integral in E'. destruct E'; [lra|congruence].
    + f_equal. field. split; [assumption|lra].
Qed.
