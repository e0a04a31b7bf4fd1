(** Properties C47, C48: post-processing of approximate hubness reduction. *)
From Coq Require Import String.
From Coq Require Import ZArith List Arith Lia Bool Permutation Reals Lra.
From Flocq Require Import BinarySingleNaN.
From Verif Require Import Py Num NumT Arr Sort P_F64 M_Approx P_Approx.
Import ListNotations.
Local Open Scope nat_scope.

(** ** C47: enforce_finite_distances *)

(** Exact arithmetic.  [l] is the array, [r] the result. *)
Theorem C47_exact :
  forall l : list xr,
    (l = [] -> enforce_finite l = Raise ValueError) /\
    (l <> [] -> exists r, enforce_finite l = Ok r /\ length r = length l /\
      (** all finite and non-negative *)
      (forall i, i < length l -> exists x, nth i r XNaN = XFin x /\ (0 <= x)%R) /\
      (** finite entries keep their differences, and their values if none is negative *)
      (forall i j a b, i < length l -> j < length l -> nth i l XNaN = XFin a -> nth j l XNaN = XFin b ->
         exists x y, nth i r XNaN = XFin x /\ nth j r XNaN = XFin y /\ (x - y = a - b)%R) /\
      ((forall a, In (XFin a) l -> (0 <= a)%R) ->
         forall i a, i < length l -> nth i l XNaN = XFin a -> nth i r XNaN = XFin a) /\
      (** a non-finite entry becomes the largest finite one, 1 if there is none *)
      (forall i a, i < length l -> nisfin (nth i l XNaN) = false -> In (XFin a) l ->
         exists j b, j < length l /\ nth j l XNaN = XFin b /\ (forall c, In (XFin c) l -> (c <= b)%R) /\
           nth i r XNaN = nth j r XNaN) /\
      ((forall x, In x l -> nisfin x = false) -> forall i, i < length l -> nth i r XNaN = XFin 1) /\
      (** a second application changes nothing *)
      enforce_finite r = Ok r).
Proof.
  intros l. split; [intros ->; reflexivity|]. intros Hl.
  destruct (enforce_xr l Hl) as (m & Hm & Hmin & E & H0 & Hs & Hc). cbn zeta in *.
  set (s := Rmax 0 (- m)) in *. eexists. split; [exact E|].
  assert (Hlen : length (map (fun v => xadd v (XFin s)) (ef_fix l)) = length l) by (rewrite map_length; apply ef_fix_length).
  assert (Hnth : forall i, i < length l -> nth i (map (fun v => xadd v (XFin s)) (ef_fix l)) XNaN
     = xadd (if nisfin (nth i l XNaN) then nth i l XNaN else ef_max l) (XFin s)).
  { intros i Hi. change XNaN with (xadd XNaN (XFin s)) at 1. rewrite (map_nth (fun v => xadd v (XFin s))).
    now rewrite (ef_fix_nth l i XNaN XNaN Hi). }
  assert (Hfix : forall i, i < length l -> exists x, nth i (ef_fix l) XNaN = XFin x /\ (m <= x)%R).
  { intros i Hi. assert (I : In (nth i (ef_fix l) XNaN) (ef_fix l)) by (apply nth_In; now rewrite ef_fix_length).
    destruct (xfin_inv _ (ef_fix_fin xfin1 l _ I)) as (x & Ex). exists x. split; [exact Ex|]. apply Hmin. now rewrite <- Ex. }
  split; [exact Hlen|].
  assert (P1 : forall i, i < length l -> exists x, nth i (map (fun v => xadd v (XFin s)) (ef_fix l)) XNaN = XFin x /\ (0 <= x)%R).
  { intros i Hi. rewrite Hnth by exact Hi. rewrite <- (ef_fix_nth l i XNaN XNaN Hi).
    destruct (Hfix i Hi) as (x & -> & Hx). cbn. eexists. split; [reflexivity|lra]. }
  split; [exact P1|]. split; [|split; [|split; [|split]]].
  - intros i j a b Hi Hj Ea Eb. rewrite !Hnth, Ea, Eb by assumption. cbn. do 2 eexists. split; [reflexivity|]. split; [reflexivity|]. lra.
  - intros Hp i a Hi Ea. rewrite Hnth, Ea by assumption. cbn. f_equal.
    destruct Hc as [Hc|Hc]; [lra|].
    assert (Hm' : (0 <= m)%R).
    { unfold ef_fix in Hm. apply in_map_iff in Hm as (v & Ev & Hv). destruct (nisfin v) eqn:Fv.
      - subst v. now apply Hp.
      - destruct (ef_max_top l a) as (d & Ed & _ & Hd); [rewrite <- Ea; now apply nth_In|].
        rewrite Ed in Ev. injection Ev as <-. now apply Hp. }
    lra.
  - intros i a Hi Fi Ha. destruct (ef_max_top l a Ha) as (d & Ed & _ & Hd).
    destruct (In_nth _ _ XNaN Hd) as (j & Hj & Ej). exists j, d. split; [exact Hj|]. split; [exact Ej|]. split.
    + intros c Hc'. destruct (ef_max_top l c Hc') as (d' & Ed' & Hle & _). rewrite Ed in Ed'. injection Ed' as <-. exact Hle.
    + rewrite !Hnth by assumption. rewrite Fi, Ej, Ed. reflexivity.
  - intros Hn i Hi. rewrite Hnth by exact Hi. rewrite (Hn _ (nth_In l XNaN Hi)). rewrite (ef_max_none l Hn). cbn. f_equal.
    assert (m = 1)%R.
    { unfold ef_fix in Hm. apply in_map_iff in Hm as (v & Ev & Hv). rewrite (Hn v Hv), (ef_max_none l Hn) in Ev. now injection Ev. }
    destruct Hc; lra.
  - apply enforce_id.
    + intros E0. apply Hl. apply map_eq_nil in E0. unfold ef_fix in E0. now apply map_eq_nil in E0.
    + intros x Hx. destruct (In_nth _ _ XNaN Hx) as (i & Hi & <-). apply P1. now rewrite <- Hlen.
Qed.

(** binary64: never NaN, never negative; finite if no finite entry is negative *)
Theorem C47_float :
  forall l r : list f64, enforce_finite l = Ok r ->
    (forall x, In x r -> nisnan x = false /\ nle n0 x = true) /\
    ((forall x, In x l -> nisfin x = true -> nle n0 x = true) -> forall x, In x r -> nisfin x = true).
Proof.
  intros l r E.
  assert (Hl : l <> []) by (intros ->; cbn in E; discriminate).
  assert (F1 : nisfin (n1 : f64) = true) by reflexivity.
  destruct (enforce_eq f64_cmp F1 l Hl) as (m & Hm & Hmin & E'). rewrite E' in E. clear E'.
  assert (Fm := ef_fix_fin F1 l m Hm).
  destruct (nlt m n0) eqn:Em; injection E as <-; split.
  - intros x Hx. apply in_map_iff in Hx as (v & <- & Hv). apply shift_nonneg; [now apply (ef_fix_fin F1 l)|exact Fm|now apply Hmin].
  - intros Hp x Hx. exfalso.
    assert (Hge : nle n0 m = true).
    { unfold ef_fix in Hm. apply in_map_iff in Hm as (v & Ev & Hv). destruct (nisfin v) eqn:Fv; [subst v; now apply Hp|].
      unfold ef_max in Ev. destruct (filter nisfin l) as [|y t] eqn:EF; [subst m; reflexivity|].
      pose proof (vmax_in y t) as I. rewrite <- EF, Ev in I. apply filter_In in I as (I1 & I2). now apply Hp. }
    rewrite (nle_not_lt f64_cmp) in Hge by (reflexivity || now apply (fin_not_nan f64_cmp)). rewrite Em in Hge. discriminate.
  - intros x Hx. split; [apply (fin_not_nan f64_cmp), (ef_fix_fin F1 l x Hx)|].
    assert (Hx' := Hmin x Hx). assert (Fx := ef_fix_fin F1 l x Hx).
    apply nle_B2R in Hx'; [|exact Fm|exact Fx].
    assert (Hm0 : nle n0 m = true) by (rewrite (nle_not_lt f64_cmp); [now rewrite Em|reflexivity|now apply (fin_not_nan f64_cmp)]).
    apply nle_B2R in Hm0; [|reflexivity|exact Fm]. apply nle_B2R; [reflexivity|exact Fx|]. lra.
  - intros _ x Hx. apply (ef_fix_fin F1 l x Hx).
Qed.

(** the shift can overflow: the result then contains an infinite distance, and a
    second application changes it *)
Definition big : f64 := f64_ofZ (2 ^ 1023).
Theorem C47_overflow :
  exists (l r : list f64), enforce_finite l = Ok r /\ (forall x, In x l -> nisfin x = true) /\
    (exists x, In x r /\ nisfin x = false) /\
    exists r', enforce_finite r = Ok r' /\ forall x, In x r' -> nisfin x = true.
Proof.
  set (l := [Bopp big; big] : list f64). exists l.
  destruct (enforce_finite l) as [r|] eqn:E.
  - exists r. split; [reflexivity|].
    assert (C : match enforce_finite l with
                | Ok r => existsb (fun x => negb (nisfin x)) r &&
                    match enforce_finite r with Ok r' => forallb nisfin r' | Raise _ => false end
                | Raise _ => false end = true) by (vm_compute; reflexivity).
    rewrite E in C. apply andb_true_iff in C as (C1 & C2).
    split; [intros x [<-|[<-|[]]]; vm_compute; reflexivity|]. split.
    + apply existsb_exists in C1 as (x & Hx & Fx). exists x. split; [exact Hx|]. now apply negb_true_iff.
    + destruct (enforce_finite r) as [r'|]; [|discriminate]. exists r'. split; [reflexivity|]. now apply forallb_forall.
  - exfalso. assert (C : is_ok (enforce_finite l) = true) by (vm_compute; reflexivity). rewrite E in C. discriminate.
Qed.
Example ex_C47 :
  enforce_finite [XFin 2; XPInf; XFin (-1); XNaN] = Ok [XFin 3; XFin 3; XFin 0; XFin 3].
Proof.
  destruct (C47_exact [XFin 2; XPInf; XFin (-1); XNaN]) as (_ & H). destruct H as (r & E & L & Hfin & Hd & _ & Hn & _ & Hi); [discriminate|].
  rewrite E. f_equal. destruct r as [|a [|b [|c [|d [|e r]]]]]; try discriminate L.
  unfold enforce_finite in E. cbn [filter nisfin Num_xr xisfin existsb map negb orb] in E. cbn [vmax fold_left] in E.
  change (nlt (XFin 2) (XFin (-1))) with (if Rlt_dec 2 (-1) then true else false) in E. destruct (Rlt_dec 2 (-1)); [lra|].
  cbn [vmin fold_left] in E.
  change (nlt (XFin 2) (XFin 2)) with (if Rlt_dec 2 2 then true else false) in E. destruct (Rlt_dec 2 2); [lra|].
  change (nlt (XFin (-1)) (XFin 2)) with (if Rlt_dec (-1) 2 then true else false) in E. destruct (Rlt_dec (-1) 2); [|lra].
  change (nlt (XFin 2) (XFin (-1))) with (if Rlt_dec 2 (-1) then true else false) in E.
  destruct (Rlt_dec 2 (-1)); [lra|].
  change (nlt (XFin (-1)) Num.n0) with (if Rlt_dec (-1) (IZR 0) then true else false) in E. destruct (Rlt_dec (-1) (IZR 0)); [|cbn in *; lra].
  cbn in E. injection E as <- <- <- <-. repeat f_equal; lra.
Qed.

(** ** C48: the sparse matrix of secondary distances *)

(** distinct candidates: every stored value is the computed distance *)
Theorem C48_distinct :
  forall (D : arr2 f64) ind n_train M,
    (forall i, i < nrow D -> length (cand_row ind i) = ncol D) ->
    sparse_distance_matrix D ind n_train = Ok M ->
    forall i, i < nrow D ->
      (NoDup (cand_row ind i) -> forall c, c < ncol D -> M i (nth c (cand_row ind i) 0) = Some (at2 D i c)) /\
      (forall j, ~ In j (cand_row ind i) -> M i j = None).
Proof.
  intros D ind n M Hl E i Hi. rewrite (sparse_ok_inv _ _ _ _ E). split.
  - intros Hn c Hc. unfold coo_tocsr. rewrite coo_row by exact Hi. rewrite hits_single by auto. reflexivity.
  - intros j Hj. unfold coo_tocsr. rewrite coo_row by exact Hi. rewrite hits_none by auto. reflexivity.
Qed.
(** ValueError exactly when some candidate is not a training object *)
Theorem C48_error :
  forall (D : arr2 f64) ind n_train,
    (forall i, i < nrow D -> length (cand_row ind i) = ncol D) ->
    (sparse_distance_matrix D ind n_train = Raise ValueError /\ exists i j, i < nrow D /\ In j (cand_row ind i) /\ n_train <= j) \/
    ((exists M, sparse_distance_matrix D ind n_train = Ok M) /\ forall i j, i < nrow D -> In j (cand_row ind i) -> j < n_train).
Proof. intros. now apply sparse_ok_iff. Qed.
(** in general the value is the sum over all positions of the candidate *)
Theorem C48_duplicates_summed :
  forall (D : arr2 xr) (d : nat -> nat -> R) ind n_train M,
    (forall i, i < nrow D -> length (cand_row ind i) = ncol D) ->
    (forall i c, i < nrow D -> c < ncol D -> at2 D i c = XFin (d i c)) ->
    sparse_distance_matrix D ind n_train = Ok M ->
    forall i j, i < nrow D -> In j (cand_row ind i) ->
      M i j = Some (XFin (rsum (map (d i) (filter (fun c => nth c (cand_row ind i) 0 =? j) (seq 0 (ncol D)))))).
Proof.
  intros D d ind n M Hl Hd E i j Hi Hj. rewrite (sparse_ok_inv _ _ _ _ E). unfold coo_tocsr. rewrite coo_row by exact Hi.
  fold (hits ind (ncol D) i j).
  assert (E1 : map (at2 D i) (hits ind (ncol D) i j) = map XFin (map (d i) (hits ind (ncol D) i j))).
  { rewrite map_map. apply map_ext_in. intros c Hc. apply filter_In in Hc as (Hc & _). apply in_seq in Hc. apply Hd; lia. }
  rewrite E1. destruct (hits ind (ncol D) i j) as [|c t] eqn:Eh.
  - exfalso. destruct (In_nth _ _ 0 Hj) as (c & Hc & Ec).
    assert (In c (hits ind (ncol D) i j)); [|rewrite Eh in *; contradiction].
    apply filter_In. split; [apply in_seq; rewrite Hl in Hc by exact Hi; lia|]. rewrite Ec. apply Nat.eqb_refl.
  - cbn [map]. f_equal. apply fold_xadd_fin.
Qed.
(** a list padded by repeating its last candidate: p distinct candidates, the
    last one at all positions from p-1 on, each time with distance v *)
Theorem C48_padding :
  forall (D : arr2 xr) (d : nat -> nat -> R) ind n_train M,
    (forall i, i < nrow D -> length (cand_row ind i) = ncol D) ->
    (forall i c, i < nrow D -> c < ncol D -> at2 D i c = XFin (d i c)) ->
    sparse_distance_matrix D ind n_train = Ok M ->
    forall i p j v, i < nrow D -> p < ncol D ->
      (forall c, c < p -> nth c (cand_row ind i) 0 <> j) ->
      (forall c, p <= c < ncol D -> nth c (cand_row ind i) 0 = j /\ d i c = v) ->
      M i j = Some (XFin (INR (ncol D - p) * v)).
Proof.
  intros D d ind n M Hl Hd E i p j v Hi Hp H1 H2.
  rewrite (C48_duplicates_summed D d ind n M Hl Hd E i j Hi).
  - do 2 f_equal. replace (ncol D) with (p + (ncol D - p)) at 1 by lia. rewrite seq_app, filter_app. cbn [Nat.add].
    assert (G1 : filter (fun c => nth c (cand_row ind i) 0 =? j) (seq 0 p) = []).
    { destruct (filter _ (seq 0 p)) as [|x t] eqn:Ef; [reflexivity|exfalso].
      assert (I : In x (x :: t)) by now left. rewrite <- Ef in I. apply filter_In in I as (I1 & I2). apply in_seq in I1. apply Nat.eqb_eq in I2.
      apply (H1 x); lia. }
    assert (G2 : filter (fun c => nth c (cand_row ind i) 0 =? j) (seq p (ncol D - p)) = seq p (ncol D - p)).
    { assert (G : forall l, (forall c, In c l -> p <= c < ncol D) -> filter (fun c => nth c (cand_row ind i) 0 =? j) l = l).
      { induction l as [|c l IH]; intros Hc; cbn; [reflexivity|]. rewrite (proj1 (H2 c (Hc c (or_introl eq_refl)))), Nat.eqb_refl.
        f_equal. apply IH. intros; apply Hc; now right. }
      apply G. intros c Hc. apply in_seq in Hc. lia. }
    rewrite G1, G2. cbn [app].
    rewrite (rsum_ext (d i) (fun _ => v)) by (intros c Hc; apply in_seq in Hc; apply H2; lia).
    now rewrite rsum_const, seq_length.
  - rewrite <- (proj1 (H2 p ltac:(lia))). apply nth_In. rewrite Hl by exact Hi. exact Hp.
Qed.
Example ex_C48 :
  let D := Arr2 1 3 (fun _ c => XFin (INR (c + 1))) in
  exists M, sparse_distance_matrix D (RowInd (fun _ => [4; 7; 7])) 9 = Ok M /\ M 0 4 = Some (XFin (INR 1)) /\ M 0 5 = None /\
    M 0 7 = Some (XFin (INR 2 + INR 3)).
Proof.
  eexists. split; [reflexivity|]. cbn [coo_tocsr coo_triples]. repeat split; cbn; repeat f_equal; lra.
Qed.

Print Assumptions C47_exact.
Print Assumptions C47_float.
Print Assumptions C47_overflow.
Print Assumptions C48_distinct.
Print Assumptions C48_error.
Print Assumptions C48_duplicates_summed.
Print Assumptions C48_padding.
