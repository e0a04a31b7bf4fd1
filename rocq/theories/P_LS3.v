(** Local scaling and NICDM over exact numbers: values, uniqueness of order
    statistics, scaling; and what +0 does in float64. *)
From Coq Require Import String.
From Coq Require Import ZArith Reals Lra List Arith Lia Bool Permutation.
From Flocq Require Import Core BinarySingleNaN.
From Verif Require Import Py Num NumT Arr Sort Conc S_Neighbors S_LS M_IO M_Hubness M_SNN M_LS.
From Verif Require Import P_Neighbors P_Hubness P_MPEmpiric P_SNN P_LS P_LS2.
Import ListNotations.
Local Open Scope nat_scope.

Lemma xadd0_r v : xadd v (XFin 0) = v.
Proof. destruct v; simpl; auto. f_equal. lra. Qed.
Lemma xadd0_l v : xadd (XFin 0) v = v.
Proof. destruct v; simpl; auto. f_equal. lra. Qed.
Lemma maybe0_xr (v w : xr) : maybe0 v w -> w = v.
Proof. intros [H|[H|H]]; subst w; [reflexivity|apply xadd0_r|apply xadd0_l]. Qed.

Lemma neq_refl_f64 (v : f64) : is_nan v = false -> neq v v = true.
Proof. intros H. rewrite (cl_eq _ _ _ f64_cmp). destruct v as [s|[|]| |s m e Hb]; try discriminate; simpl; try reflexivity; now destruct (Req_EM_T _ _). Qed.
Lemma same_refl (v : f64) : same v v = true.
Proof. unfold same. destruct (is_nan v) eqn:E; [simpl; rewrite E; now rewrite orb_true_r|]. now rewrite neq_refl_f64. Qed.
Lemma neq_sym_f64 (v w : f64) : neq v w = neq w v.
Proof. rewrite !(cl_eq _ _ _ f64_cmp). destruct (f2x v), (f2x w); simpl; try reflexivity. destruct (Req_EM_T _ _), (Req_EM_T _ _); congruence. Qed.
Lemma same_sym (v w : f64) : same v w = same w v.
Proof. unfold same. rewrite neq_sym_f64, (andb_comm (nisnan v)). reflexivity. Qed.
Lemma same_add0_r (v : f64) : same (nadd v n0) v = true.
Proof.
  destruct v as [s|s| |s m e Hb].
  - unfold same. destruct s; reflexivity.
  - destruct s; reflexivity.
  - reflexivity.
  - change (same (B754_finite s m e Hb) (B754_finite s m e Hb) = true). apply same_refl.
Qed.
Lemma same_add0_l (v : f64) : same (nadd n0 v) v = true.
Proof.
  destruct v as [s|s| |s m e Hb].
  - unfold same. destruct s; reflexivity.
  - destruct s; reflexivity.
  - reflexivity.
  - change (same (B754_finite s m e Hb) (B754_finite s m e Hb) = true). apply same_refl.
Qed.
(** [same] is "equal as extended real" *)
Lemma same_f2x (v w : f64) : same v w = true <-> f2x v = f2x w.
Proof.
  unfold same. rewrite (cl_eq _ _ _ f64_cmp), !(cl_nan _ _ _ f64_cmp).
  destruct (f2x v), (f2x w); simpl; split; intros H; try discriminate; try reflexivity.
  - destruct (Req_EM_T r r0); [congruence|discriminate].
  - injection H as ->. now destruct (Req_EM_T r0 r0).
Qed.
Lemma same_trans (u v w : f64) : same u v = true -> same v w = true -> same u w = true.
Proof. rewrite !same_f2x. congruence. Qed.
Lemma maybe0_same (v w : f64) : maybe0 v w -> same w v = true.
Proof. intros [H|[H|H]]; subst w; [apply same_refl|apply same_add0_r|apply same_add0_l]. Qed.

(** ** radii as order statistics of the row, self entry included *)
Lemma kth_smallest_unique (l : list xr) k v w : kth_smallest l k v -> kth_smallest l k w -> v = w.
Proof.
  assert (A : forall v w, kth_smallest l k v -> kth_smallest l k w -> xlt v w = false).
  { clear. intros v w (_ & _ & Hv) (_ & Hw & _). destruct (xlt v w) eqn:E; [|reflexivity]. exfalso.
    assert (length (filter (fun x => nle x v) l) <= length (filter (fun x => nlt x w) l)); [|lia].
    clear Hv Hw. induction l as [|x l IH]; [simpl; lia|]. cbn [filter].
    assert (I : nle x v = true -> nlt x w = true).
    { change (xle x v = true -> xlt x w = true). clear IH. intros H. xr_tac. }
    destruct (nle x v); [rewrite I by reflexivity; cbn [length]; lia|].
    destruct (nlt x w); cbn [length]; lia. }
  intros Hv Hw. pose proof (A v w Hv Hw) as H1. pose proof (A w v Hw Hv) as H2.
  assert (Nn : forall v, kth_smallest l k v -> v <> XNaN).
  { clear. intros v (_ & H1 & H2) ->. rewrite (filter_none (fun x => nle x XNaN)) in H2 by (intros []; reflexivity). simpl in H2. lia. }
  apply Nn in Hv. apply Nn in Hw. clear A Nn. destruct v as [| |a|], w as [| |b|]; simpl in *; try congruence.
  destruct (Rlt_dec a b), (Rlt_dec b a); try discriminate. f_equal. lra.
Qed.

Lemma ls_radius_pos (part : list xr -> list nat -> list xr) dist cols kth i : part_ok part ->
  (forall j, In j cols -> at2 dist i j <> XNaN) ->
  kth_legal (length cols) [kth] = true ->
  exists v, ls_radius part dist cols kth i = Ok v /\ v <> XNaN /\
    kth_smallest (map (at2 dist i) cols) (S (py_norm (length cols) kth)) v.
Proof.
  intros PO Hn Lg. unfold ls_radius, np_partition. rewrite map_length, Lg. cbn [bind map].
  eexists. split; [reflexivity|].
  assert (Hlt : py_norm (length cols) kth < length cols).
  { unfold kth_legal in Lg. cbn [forallb] in Lg. rewrite andb_true_r in Lg. apply andb_true_iff in Lg.
    destruct Lg as (L1 & L2). apply Z.leb_le in L1. apply Z.ltb_lt in L2. unfold py_norm.
    destruct (Z.ltb_spec kth 0); lia. }
  assert (P : is_part (map (at2 dist i) cols) [py_norm (length cols) kth]
       (part (map (at2 dist i) cols) [py_norm (length cols) kth])).
  { apply PO. intros x [<-|[]]. now rewrite map_length. }
  assert (K : kth_smallest (map (at2 dist i) cols) (S (py_norm (length cols) kth))
       (vat (part (map (at2 dist i) cols) [py_norm (length cols) kth]) (py_norm (length cols) kth))).
  { apply (part_kth_smallest xr_cmp); [assumption|now rewrite map_length|].
    intros x Hx. apply in_map_iff in Hx. destruct Hx as (j & <- & Hj). specialize (Hn j Hj).
    simpl. now destruct (at2 dist i j). }
  split; [|exact K]. intros E. destruct K as (K & _). unfold vat in K. rewrite E in K.
  apply in_map_iff in K. destruct K as (j & Ej & Hj). now apply (Hn j).
Qed.

(** ** scaling *)
Definition scale (c : R) (D : arr2 xr) : arr2 xr := Arr2 (nrow D) (ncol D) (fun i j => xmul (XFin c) (at2 D i j)).

Lemma rsgn_pos c : (0 < c)%R -> rsgn c = 1%Z.
Proof. intros H. unfold rsgn. destruct (Rlt_dec c 0); [lra|]. now destruct (Rlt_dec 0 c). Qed.
Lemma rsgn_mult c x : (0 < c)%R -> rsgn (c * x) = rsgn x.
Proof.
  intros H. unfold rsgn. destruct (Rlt_dec x 0), (Rlt_dec (c*x) 0); try reflexivity; try nra.
  destruct (Rlt_dec 0 x), (Rlt_dec 0 (c*x)); try reflexivity; exfalso; nra.
Qed.
Lemma xmul_lt c x y : (0 < c)%R -> xlt (xmul (XFin c) x) (xmul (XFin c) y) = xlt x y.
Proof.
  intros H. destruct x as [| |a|], y as [| |b|]; simpl; rewrite ?rsgn_pos by assumption; try reflexivity.
  destruct (Rlt_dec a b), (Rlt_dec (c*a) (c*b)); try reflexivity; exfalso; nra.
Qed.
Lemma xmul_le c x y : (0 < c)%R -> xle (xmul (XFin c) x) (xmul (XFin c) y) = xle x y.
Proof.
  intros H. destruct x as [| |a|], y as [| |b|]; simpl; rewrite ?rsgn_pos by assumption; try reflexivity.
  destruct (Rle_dec a b), (Rle_dec (c*a) (c*b)); try reflexivity; exfalso; nra.
Qed.
Lemma filter_map_len {A B} (f : A -> B) p l : length (filter p (map f l)) = length (filter (fun x => p (f x)) l).
Proof. induction l; simpl; [reflexivity|]. destruct (p _); simpl; auto. Qed.
Lemma kth_smallest_scale c l k v : (0 < c)%R -> kth_smallest l k v -> kth_smallest (map (xmul (XFin c)) l) k (xmul (XFin c) v).
Proof.
  intros Hc (H1 & H2). split; [now apply in_map|]. rewrite !filter_map_len.
  rewrite (filter_ext _ (fun x => nlt x v)) by (intros x; now apply xmul_lt).
  rewrite (filter_ext (fun x => nle (xmul (XFin c) x) (xmul (XFin c) v)) (fun x => nle x v)) by (intros x; now apply xmul_le).
  assumption.
Qed.

Lemma xmul_fin c x : xisfin x = true -> exists r, x = XFin r /\ xmul (XFin c) x = XFin (c * r).
Proof. destruct x; try discriminate. intros _. now exists r. Qed.

(** the value of a pair does not change when distances and radii are scaled *)
Lemma ls_val_scale c metric d ri rj : (0 < c)%R ->
  ls_val xexp metric (XFin (c * d)) (xmul (XFin c) ri) (xmul (XFin c) rj) = ls_val xexp metric (XFin d) ri rj.
Proof.
  intros Hc. unfold ls_val. cbv zeta.
  assert (E : ndiv (nmul (nofZ (-1)) (nmul (XFin (c * d)) (XFin (c * d)))) (nmul (xmul (XFin c) ri) (xmul (XFin c) rj))
            = ndiv (nmul (nofZ (-1)) (nmul (XFin d) (XFin d))) (nmul ri rj)).
  { simpl. destruct ri as [| |a|], rj as [| |b|]; simpl; rewrite ?(rsgn_pos c) by assumption; simpl; try reflexivity;
      rewrite ?rsgn_mult by assumption; try (destruct (rsgn _); reflexivity).
    assert (Hcc : (0 < c * c)%R) by nra.
    destruct (Req_EM_T (c * a * (c * b)) 0) as [E0|E0], (Req_EM_T (a * b) 0) as [E1|E1].
    - replace (-1 * (c * d * (c * d)))%R with ((c * c) * (-1 * (d * d)))%R by ring. now rewrite rsgn_mult.
    - exfalso. apply E1. replace (c * a * (c * b))%R with ((c*c) * (a * b))%R in E0 by ring.
      apply Rmult_integral in E0. destruct E0; [lra|assumption].
    - exfalso. apply E0. replace (c * a * (c * b))%R with ((c*c) * (a * b))%R by ring. rewrite E1. ring.
    - f_equal. field. split; [intros ->; apply E1; ring|]. split; [intros ->; apply E1; ring|lra]. }
  now rewrite E.
Qed.

Lemma fill_scale c D e : (forall x, xmul (XFin c) e = x -> x = e) ->
  forall i j, at2 (fill_diagonal (scale c D) e) i j = xmul (XFin c) (at2 (fill_diagonal D e) i j).
Proof. intros H i j. cbn [fill_diagonal scale at2]. destruct (i =? j); [|reflexivity]. symmetry. now apply H. Qed.

Lemma excl_scale c metric : (0 < c)%R -> xmul (XFin c) (ls_exclude metric) = ls_exclude metric.
Proof. intros Hc. unfold ls_exclude. destruct (is_sim metric); simpl; rewrite rsgn_pos by assumption; reflexivity. Qed.

Definition off_finite (D : arr2 xr) : Prop :=
  forall i j, i < nrow D -> j < nrow D -> i <> j -> xisfin (at2 D i j) = true.

Lemma mapM_ext_in {A B} (f g : A -> result B) l : (forall x, In x l -> f x = g x) -> mapM f l = mapM g l.
Proof. induction l as [|x l IH]; [reflexivity|]. intros H. simpl. rewrite H by now left. rewrite IH; [reflexivity|]. intros y Hy. apply H. now right. Qed.

Lemma mapM_map_ok {A B C} (f : A -> result B) (g : A -> result C) (h : B -> C) l :
  (forall x, In x l -> exists v, f x = Ok v /\ g x = Ok (h v)) ->
  exists r, mapM f l = Ok r /\ mapM g l = Ok (map h r).
Proof.
  induction l as [|x l IH]; intros H; [now exists []|].
  destruct (H x (or_introl eq_refl)) as (v & E1 & E2). destruct IH as (r & F1 & F2); [intros y Hy; apply H; now right|].
  exists (v :: r). simpl. now rewrite E1, E2, F1, F2.
Qed.

Lemma ls_radii_scale part part' c D k metric test : part_ok part -> part_ok part' -> (0 < c)%R -> off_finite D ->
  match ls_radii part D k metric test with
  | Ok rs => ls_radii part' (scale c D) k metric test = Ok (map (xmul (XFin c)) rs)
  | Raise e => ls_radii part' (scale c D) k metric test = Raise e
  end.
Proof.
  intros PO PO' Hc Hf. unfold ls_radii. cbn [scale nrow ncol].
  destruct (check_distance_matrix_shape (Dense [nrow D; ncol D])) as [[]|e]; [|reflexivity]. cbn [bind].
  destruct (check_valid_metric_parameter metric) as [[]|e]; [|reflexivity]. cbn [bind].
  set (n := nrow D). set (cols := ls_train n test). set (kth := ls_kth metric n k).
  assert (Cin : forall j, In j cols -> j < n) by (intros j Hj; unfold cols in Hj; rewrite training_eq in Hj; now apply training_in in Hj).
  destruct (kth_legal (length cols) [kth]) eqn:Lg.
  - destruct (mapM_map_ok (ls_radius part (fill_diagonal D (ls_exclude metric)) cols kth)
       (ls_radius part' (fill_diagonal (scale c D) (ls_exclude metric)) cols kth) (xmul (XFin c)) (seq 0 n)) as (r & -> & E).
    + intros i Hi. apply in_seq in Hi.
      assert (Hnn : forall j, In j cols -> at2 (fill_diagonal D (ls_exclude metric)) i j <> XNaN).
      { intros j Hj. apply Cin in Hj. cbn [fill_diagonal at2]. destruct (Nat.eqb_spec i j).
        - unfold ls_exclude. now destruct (is_sim metric).
        - specialize (Hf i j). unfold n in *. destruct (at2 D i j); try congruence. discriminate Hf; lia. }
      destruct (ls_radius_pos part (fill_diagonal D (ls_exclude metric)) cols kth i PO Hnn Lg) as (v & E1 & _ & K).
      assert (Fs : forall j, at2 (fill_diagonal (scale c D) (ls_exclude metric)) i j = xmul (XFin c) (at2 (fill_diagonal D (ls_exclude metric)) i j)).
      { intros j. apply fill_scale. intros x <-. now apply excl_scale. }
      destruct (ls_radius_pos part' (fill_diagonal (scale c D) (ls_exclude metric)) cols kth i PO') as (v' & E1' & _ & K'); [|assumption|].
      { intros j Hj. rewrite Fs. specialize (Hnn j Hj). destruct (at2 (fill_diagonal D (ls_exclude metric)) i j); simpl;
          rewrite ?rsgn_pos by assumption; simpl; congruence. }
      exists v. split; [assumption|]. rewrite E1'. f_equal.
      apply (kth_smallest_unique _ _ _ _ K').
      replace (map (at2 (fill_diagonal (scale c D) (ls_exclude metric)) i) cols) with
        (map (xmul (XFin c)) (map (at2 (fill_diagonal D (ls_exclude metric)) i) cols)).
      * now apply kth_smallest_scale.
      * rewrite map_map. apply map_ext. intros j. now rewrite Fs.
    + exact E.
  - assert (G : forall p (d : arr2 xr) i, ls_radius p d cols kth i = Raise ValueError).
    { intros p d i. unfold ls_radius, np_partition. now rewrite map_length, Lg. }
    rewrite (mapM_ext_in (ls_radius part (fill_diagonal D (ls_exclude metric)) cols kth) (fun _ => Raise ValueError) (seq 0 n)) by (intros; apply G).
    rewrite (mapM_ext_in (ls_radius part' (fill_diagonal _ (ls_exclude metric)) cols kth) (fun _ => Raise ValueError) (seq 0 n)) by (intros; apply G).
    destruct (seq 0 n); reflexivity.
Qed.
