(** Property C194, last part: local scaling and NICDM do not keep separated classes separated. *)
From Coq Require Import String.
From Coq Require Import ZArith Reals Lra List Arith Lia Bool Permutation.
From Verif Require Import Py Num NumT Arr Sort S_Neighbors S_LS M_IO M_LS.
From Verif Require Import P_LS P_LS2 P_LS3 P_NICDM Properties_LS Properties_NICDM.
Import ListNotations.
Local Open Scope nat_scope.

(** everyone is closer to the members of the own class than to all others (exact distances) *)
Definition separated_exactly (D : arr2 xr) (lab : list Z) : Prop :=
  forall i x y, i < nrow D -> x < nrow D -> y < nrow D -> x <> i -> nth x lab 0%Z = nth i lab 0%Z -> nth y lab 0%Z <> nth i lab 0%Z ->
    nlt (at2 D i x) (at2 D i y) = true.

(** objects at 0, 10, 11 and at -12, -22 *)
Definition loose_pos : list Z := [0; 10; 11; -12; -22]%Z.
Definition loose_lab : list Z := [1; 1; 1; 2; 2]%Z.
Definition loose : arr2 xr := Arr2 5 5 (fun i j => XFin (IZR (Z.abs (nth i loose_pos 0%Z - nth j loose_pos 0%Z)%Z))).

Lemma radius_is_min (l : list xr) (s : list R) (m : Z) : k_smallest l 1 (map XFin s) -> In (XFin (IZR m)) l ->
  (forall y, In y l -> exists z, y = XFin (IZR z) /\ (m <= z)%Z) -> s = [IZR m].
Proof.
  intros (L & rest & P & H) Hm Ha. destruct s as [|v [|w s]]; try discriminate. cbn [map] in P, H. f_equal.
  destruct (Ha (XFin v)) as (z & Ez & Hz); [apply (Permutation_in _ (Permutation_sym P)); now left|]. injection Ez as ->.
  apply (Permutation_in _ P) in Hm as [E|Hm]; [now injection E|]. specialize (H (XFin (IZR z)) (XFin (IZR m)) ltac:(now left) Hm).
  f_equal. cbn in H. destruct (Rlt_dec (IZR m) (IZR z)) as [|N]; [discriminate|]. apply Rnot_lt_le, le_IZR in N. lia.
Qed.

Theorem C194_nicdm_breaks_separation :
  separated_exactly loose loose_lab /\
  forall part cpu n_jobs res, part_ok part -> nicdm xexp xln xsum part loose 1 "distance" None cpu n_jobs res ->
  exists L, res = Ok L /\
    (** the nearest neighbour of object 0 is object 3, of the other class *)
    (forall x, x < 5 -> x <> 0 -> x <> 3 -> nlt (at2 L 0 3) (at2 L 0 x) = true) /\ nth 3 loose_lab 0%Z <> nth 0 loose_lab 0%Z.
Proof.
  split.
  - intros i x y Hi Hx Hy Hne El Nl. cbn [loose nrow] in Hi, Hx, Hy.
    change (xlt (XFin (IZR (Z.abs (nth i loose_pos 0%Z - nth x loose_pos 0%Z)%Z))) (XFin (IZR (Z.abs (nth i loose_pos 0%Z - nth y loose_pos 0%Z)%Z))) = true). cbn [xlt].
    assert (G : (Z.abs (nth i loose_pos 0%Z - nth x loose_pos 0%Z)%Z < Z.abs (nth i loose_pos 0%Z - nth y loose_pos 0%Z)%Z)%Z).
    { destruct i as [|[|[|[|[|i]]]]], x as [|[|[|[|[|x]]]]], y as [|[|[|[|[|y]]]]]; try lia; cbn in El, Nl; try congruence; reflexivity. }
    apply IZR_lt in G. destruct (Rlt_dec _ _); [reflexivity|contradiction].
  - intros part cpu nj res PO H.
    destruct (C32_nicdm_formula part loose 5 1 None cpu nj res PO eq_refl eq_refl) as (L & r & -> & _ & _ & K & _ & _ & F); [intros; reflexivity|cbn; lia|exact H|].
    exists L. split; [reflexivity|]. split; [|discriminate].
    assert (Rr : forall i, i < 5 -> r i = IZR (nth i [10; 1; 1; 10; 10]%Z 0%Z)).
    { intros i Hi. destruct (K i Hi) as (s & Ks & Es). rewrite (radius_is_min _ s (nth i [10; 1; 1; 10; 10]%Z 0%Z) Ks) in Es.
      - rewrite Es. cbn [fold_right INR]. lra.
      - destruct i as [|[|[|[|[|i]]]]]; try lia; cbn; tauto.
      - intros y Hy. unfold others in Hy. apply in_map_iff in Hy as (x & <- & Hx). apply filter_In in Hx as (Hx & Hne). apply in_seq in Hx. apply negb_true_iff, Nat.eqb_neq in Hne.
        cbn [loose at2]. eexists. split; [reflexivity|]. destruct i as [|[|[|[|[|i]]]]], x as [|[|[|[|[|x]]]]]; try lia; cbn; lia. }
    assert (Pos : forall i, i < 5 -> (0 < r i)%R) by (intros i Hi; rewrite Rr by exact Hi; apply IZR_lt; destruct i as [|[|[|[|[|i]]]]]; try lia; cbn; lia).
    specialize (F Pos). cbv zeta in F. set (g := exp _) in F. assert (Hg : (0 < g)%R) by apply exp_pos.
    assert (E1 : at2 L 0 1 = XFin (g * 10 / sqrt 10)).
    { rewrite (proj1 (F 0 1 ltac:(lia) ltac:(lia))), !Rr by lia. cbn [nth]. unfold real_at. cbn. do 2 f_equal. f_equal. lra. }
    assert (E2 : at2 L 0 2 = XFin (g * 11 / sqrt 10)).
    { rewrite (proj1 (F 0 2 ltac:(lia) ltac:(lia))), !Rr by lia. cbn [nth]. unfold real_at. cbn. do 2 f_equal. f_equal. lra. }
    assert (S100 : sqrt (10 * 10) = 10%R) by (apply sqrt_square; lra).
    assert (E3 : at2 L 0 3 = XFin (g * 12 / 10)).
    { rewrite (proj1 (F 0 3 ltac:(lia) ltac:(lia))), !Rr by lia. cbn [nth]. rewrite S100. reflexivity. }
    assert (E4 : at2 L 0 4 = XFin (g * 22 / 10)).
    { rewrite (proj1 (F 0 4 ltac:(lia) ltac:(lia))), !Rr by lia. cbn [nth]. rewrite S100. reflexivity. }
    assert (S10 : (0 < sqrt 10 < 4)%R).
    { split; [apply sqrt_lt_R0; lra|]. replace 4%R with (sqrt (4 * 4)) by (apply sqrt_square; lra). apply sqrt_lt_1; lra. }
    assert (I10 : (/ 4 < / sqrt 10)%R) by (apply Rinv_lt_contravar; nra).
    assert (Lt : forall a b : R, (a < b)%R -> nlt (XFin a) (XFin b) = true) by (intros a b Hab; change (xlt (XFin a) (XFin b) = true); cbn [xlt]; destruct (Rlt_dec a b); [reflexivity|contradiction]).
    intros x Hx H0 H3. destruct x as [|[|[|[|[|x]]]]]; try lia; rewrite E3, ?E1, ?E2, ?E4; apply Lt; unfold Rdiv; nra.
Qed.

Lemma kth_is_min (l : list xr) (v : R) (m : Z) : kth_smallest l 1 (XFin v) -> In (XFin (IZR m)) l ->
  (forall y, In y l -> exists z, y = XFin (IZR z) /\ (m <= z)%Z) -> v = IZR m.
Proof.
  intros (Hv & Hlt & _) Hm Ha. destruct (Ha _ Hv) as (z & Ez & Hz). injection Ez as ->.
  destruct (Z.eq_dec m z) as [->|Hne]; [reflexivity|]. exfalso.
  assert (I : In (XFin (IZR m)) (filter (fun x => nlt x (XFin (IZR z))) l)).
  { apply filter_In. split; [exact Hm|]. change (xlt (XFin (IZR m)) (XFin (IZR z)) = true). cbn [xlt]. assert (G : (IZR m < IZR z)%R) by (apply IZR_lt; lia). destruct (Rlt_dec _ _); [reflexivity|contradiction]. }
  destruct (filter _ l); [contradiction|cbn in Hlt; lia].
Qed.

Theorem C194_local_scaling_breaks_separation :
  forall part cpu n_jobs res, part_ok part -> (1 <= workers cpu n_jobs)%Z ->
  local_scaling xexp part loose 1 "distance" None cpu n_jobs res ->
  exists L, res = Ok L /\
    (forall x, x < 5 -> x <> 0 -> x <> 3 -> nlt (at2 L 0 3) (at2 L 0 x) = true) /\ nth 3 loose_lab 0%Z <> nth 0 loose_lab 0%Z.
Proof.
  intros part cpu nj res PO Hw H.
  destruct (C27_ls_formula part loose 5 1 None cpu nj res PO eq_refl eq_refl) as (L & r & -> & _ & _ & K & _ & _ & F & _); [intros; reflexivity|cbn; lia|exact Hw|exact H|].
  exists L. split; [reflexivity|]. split; [|discriminate].
  assert (Rr : forall i, i < 5 -> r i = IZR (nth i [10; 1; 1; 10; 10]%Z 0%Z)).
  { intros i Hi. apply (kth_is_min _ _ _ (K i Hi)).
    - destruct i as [|[|[|[|[|i]]]]]; try lia; cbn; tauto.
    - intros y Hy. unfold others in Hy. apply in_map_iff in Hy as (x & <- & Hx). apply filter_In in Hx as (Hx & Hne). apply in_seq in Hx. apply negb_true_iff, Nat.eqb_neq in Hne.
      cbn [loose at2]. eexists. split; [reflexivity|]. destruct i as [|[|[|[|[|i]]]]], x as [|[|[|[|[|x]]]]]; try lia; cbn; lia. }
  assert (G : forall x, 0 < x -> x < 5 -> at2 L 0 x = XFin (1 - exp (- (IZR (nth x [0; 10; 11; 12; 22]%Z 0%Z) * IZR (nth x [0; 10; 11; 12; 22]%Z 0%Z)) / (10 * IZR (nth x [10; 1; 1; 10; 10]%Z 0%Z))))).
  { intros x Hx Hx5. rewrite F; [|lia|lia|].
    - rewrite !Rr by lia. destruct x as [|[|[|[|[|x]]]]]; try lia; reflexivity.
    - rewrite !Rr by lia. destruct x as [|[|[|[|[|x]]]]]; try lia; cbn; lra. }
  intros x Hx H0 H3. rewrite !G by lia.
  match goal with |- nlt (XFin ?a) (XFin ?b) = true => change (xlt (XFin a) (XFin b) = true); cbn [xlt]; assert (Q : (a < b)%R) end.
  { assert (M : forall u w, (w < u)%R -> (1 - exp u < 1 - exp w)%R) by (intros u w Huw; apply exp_increasing in Huw; lra).
    apply M. destruct x as [|[|[|[|[|x]]]]]; try lia; cbn [nth]; lra. }
  destruct (Rlt_dec _ _); [reflexivity|contradiction].
Qed.

Example C194_nicdm_case : exists L, nicdm xexp xln xsum ref_part loose 1 "distance" None 4 3 (Ok L).
Proof.
  destruct (C29_nicdm_some_outcome xexp xln xsum ref_part loose 1 "distance" None 4 3) as (res & H).
  destruct (proj2 C194_nicdm_breaks_separation ref_part 4 3%Z res (ref_part_ok xr_cmp) H) as (L & -> & _). now exists L.
Qed.
Print Assumptions C194_nicdm_breaks_separation.
Print Assumptions C194_local_scaling_breaks_separation.
