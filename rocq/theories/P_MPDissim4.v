(** mp_dissim: values, schedules, ranks. *)
From Coq Require Import String.
From Coq Require Import ZArith Reals Lra Lia Psatz List Arith Bool Permutation Sorting.
From Verif Require Import Py Num NumT NumPow Arr Sort Conc S_Centering M_SNN M_MPDissim S_MPDissim P_Vec P_MPDissim P_MPDissim2 P_MPDissim3 P_ApproxANN.
Import ListNotations.
Local Open Scope nat_scope.

Definition jobs_ok (jobs : Z) (cpus : nat) : Prop := (1 <= (if jobs =? -1 then Z.of_nat cpus else jobs))%Z.

Lemma hist_len {V} `{Num V} (e : list V) col : length (hist e col) = length e - 1.
Proof. unfold hist. rewrite map_length, seq_length. reflexivity. Qed.

Lemma fit_ok {V} `{Num V} nb d Y E : 0 < nb -> (forall f, f < d -> length (nth f E []) = S nb) -> fit_all nb d Y E = true.
Proof.
  intros Hn HE. unfold fit_all. apply negb_true_iff. destruct (existsb _ (seq 0 d)) eqn:X; [|reflexivity]. exfalso.
  apply existsb_exists in X as (i & Hi & X). apply in_seq in Hi. apply negb_true_iff in X.
  assert (F : hist_fits nb (hist (nth i E []) (coll Y i)) = true); [|congruence].
  apply hist_fits_iff; [exact Hn|]. rewrite hist_len, HE by lia. lia.
Qed.

Section Gen.
  Context {V} {N : Num V}.
  Variable vpow : V -> V -> V.
  Variable part : list V -> list nat -> list V.

  Lemma prepare_unfold X Y nb bin jobs cpus : ncol X = ncol Y -> 1 <= nb <= nrow Y -> jobs_ok jobs cpus ->
    mpd_prepare part X Y (Z.of_nat nb) bin jobs cpus =
    if String.prefix bin "mass" then mapM (fun f => mass_edges part (mpd_kth (nrow Y) (nrow Y / nb)) (coll Y f)) (seq 0 (ncol Y))
    else if String.prefix bin "range" then mapM (fun f => range_edges nb (coll Y f)) (seq 0 (ncol Y))
    else Raise ValueError.
  Proof.
    intros HC Hn HJ. unfold mpd_prepare. rewrite HC, Nat.eqb_refl. cbn [negb guard bind].
    replace (Z.of_nat nb <? 0)%Z with false by (symmetry; apply Z.ltb_ge; lia). cbn [guard bind].
    replace (Z.of_nat nb =? 0)%Z with false by (symmetry; apply Z.eqb_neq; lia). cbn [guard bind]. rewrite Nat2Z.id. unfold mpd_step.
    assert (S0 : nrow Y / nb <> 0). { intros E. apply Nat.div_small_iff in E; lia. }
    apply Nat.eqb_neq in S0. rewrite S0. cbn [guard bind]. unfold jobs_ok in HJ.
    replace ((if (jobs =? -1)%Z then Z.of_nat cpus else jobs) <? 1)%Z with false by (symmetry; apply Z.ltb_ge; lia). reflexivity.
  Qed.

  (** when the edges are known, every run ends with the same matrix *)
  Lemma run_known X Y0 p nb bin jobs cpus E r : let Y := arg2 X Y0 in 1 <= nb ->
    mpd_prepare part X Y (Z.of_nat nb) bin jobs cpus = Ok E -> (forall f, f < ncol X -> length (nth f E []) = S nb) ->
    mp_dissim vpow part X Y0 p (Z.of_nat nb) bin jobs cpus r ->
    exists D, r = Ok D /\ eq2 D (Arr2 (nrow X) (nrow Y) (mpd_final vpow X Y p nb (fun i => nth i E []))).
  Proof.
    intros Y Hn HP HE H. assert (F : fit_all nb (ncol X) Y E = true) by (apply fit_ok; auto).
    destruct r as [D|e].
    - exists D. split; [reflexivity|]. apply mpd_ok_value in H. cbn zeta in H. fold Y in H. destruct H as (E' & HP' & _ & Q).
      rewrite HP in HP'. injection HP' as <-. rewrite Nat2Z.id in Q. exact Q.
    - exfalso. apply mpd_outcome in H. cbn zeta in H. fold Y in H. rewrite HP, Nat2Z.id, F in H. destruct H as (D & ED & _). discriminate.
  Qed.
End Gen.

(** ** exact values *)
Lemma run_real part nx ny d x y p nb bin jobs cpus seps r :
  (0 <= p)%R -> 0 < d -> 1 <= nb <= ny ->
  (exists E, mpd_prepare part (rmat nx d x) (rmat ny d y) (Z.of_nat nb) bin jobs cpus = Ok E /\
   forall f, f < d -> exists lo hi, nth f E [] = XFin lo :: map XFin (seps f) ++ [XFin hi] /\ length (seps f) = nb - 1 /\
     redges_ok lo (seps f) hi /\ forall w, In w (map (fun j => y j f) (seq 0 ny)) -> (lo <= w <= hi)%R) ->
  mp_dissim xpow part (rmat nx d x) (Some (rmat ny d y)) (XFin p) (Z.of_nat nb) bin jobs cpus r ->
  exists D, r = Ok D /\ eq2 D (rmat nx ny (fun i j =>
     mp_formula d (nx + ny) (eff_p p) (fun f => massR (seps f) (map (fun k => y k f) (seq 0 ny)) (x i f) (y j f)))).
Proof.
  intros Hp Hd Hn (E & HP & HE) H.
  assert (N1 : 1 <= nb) by lia.
  destruct (run_known xpow part (rmat nx d x) (Some (rmat ny d y)) (XFin p) nb bin jobs cpus E r N1 HP) as (D & -> & Q).
  - cbn [ncol rmat]. intros f Hf. destruct (HE f Hf) as (lo & hi & -> & L & _). cbn [length]. rewrite app_length, map_length, L. cbn. lia.
  - exact H.
  - exists D. split; [reflexivity|]. destruct Q as (Q1 & Q2 & Q3). split; [exact Q1|]. split; [exact Q2|].
    intros i j Hi Hj. rewrite (Q3 i j Hi Hj). cbn [arg2 nrow ncol at2 rmat] in *. rewrite Q1 in Hi. rewrite Q2 in Hj.
    assert (exists lo hi : nat -> R, forall f, f < d -> nth f E [] = XFin (lo f) :: map XFin (seps f) ++ [XFin (hi f)] /\ length (seps f) = nb - 1 /\
     redges_ok (lo f) (seps f) (hi f) /\ forall w, In w (map (fun j => y j f) (seq 0 ny)) -> (lo f <= w <= hi f)%R) as (lo & hi & HE').
    { clear - HE. induction d as [|d IH]; [exists (fun _ => 0%R), (fun _ => 0%R); intros; lia|].
      destruct IH as (lo & hi & IH); [intros; apply HE; lia|]. destruct (HE d ltac:(lia)) as (l0 & h0 & A).
      exists (fun f => if f =? d then l0 else lo f), (fun f => if f =? d then h0 else hi f). intros f Hf.
      destruct (Nat.eqb_spec f d); [subst; exact A|]. apply IH. lia. }
    apply (final_value nx ny d x y p nb (fun f => nth f E []) lo hi seps); auto; lia.
Qed.

Lemma mapM_build {A B} (f : A -> result B) l : (forall a, In a l -> exists b, f a = Ok b) -> exists m, mapM f l = Ok m.
Proof.
  induction l as [|a l IH]; intros H; cbn; [eexists; reflexivity|]. destruct (H a (or_introl eq_refl)) as (b & ->).
  destruct IH as (m & ->); [intros; apply H; now right|]. eexists. reflexivity.
Qed.

Lemma range_run part nx ny d x y p nb jobs cpus seps r :
  (0 <= p)%R -> 0 < d -> 1 <= nb <= ny -> jobs_ok jobs cpus ->
  (forall f, f < d -> equal_width nb (map (fun k => y k f) (seq 0 ny)) (seps f)) ->
  mp_dissim xpow part (rmat nx d x) (Some (rmat ny d y)) (XFin p) (Z.of_nat nb) "range" jobs cpus r ->
  exists D, r = Ok D /\ eq2 D (rmat nx ny (fun i j =>
     mp_formula d (nx + ny) (eff_p p) (fun f => massR (seps f) (map (fun k => y k f) (seq 0 ny)) (x i f) (y j f)))).
Proof.
  intros Hp Hd Hn HJ HS. apply run_real; auto. rewrite prepare_unfold; [|reflexivity|cbn; lia|assumption]. cbn [String.prefix nrow ncol rmat].
  assert (NE : forall f, map (fun k => y k f) (seq 0 ny) <> []). { intros f E. apply (f_equal (@length R)) in E. rewrite map_length, seq_length in E. cbn in E. lia. }
  destruct (mapM_build (fun f => range_edges nb (coll (rmat ny d y) f)) (seq 0 d)) as (E & HE).
  { intros f _. rewrite coll_rmat. destruct (range_edges_x nb (map (fun k => y k f) (seq 0 ny)) ltac:(lia) (NE f)) as (lo & hi & s & -> & _). eexists. reflexivity. }
  exists E. split; [exact HE|]. intros f Hf.
  destruct (range_edges_x nb (map (fun k => y k f) (seq 0 ny)) ltac:(lia) (NE f)) as (lo & hi & s & EQ & L & RO & CV & EW).
  exists lo, hi. rewrite (equal_width_unique _ _ _ _ (HS f Hf) EW).
  split; [|auto]. destruct (mapM_ok_nth _ _ _ (@nil xr) HE) as [_ Q]. specialize (Q f 0%nat). rewrite seq_length in Q. specialize (Q Hf). rewrite seq_nth in Q by assumption. cbn [Nat.add] in Q.
  rewrite coll_rmat, EQ in Q. congruence.
Qed.

Lemma mass_run part (PO : part_ok part) nx ny d x y p nb jobs cpus seps r :
  (0 <= p)%R -> 0 < d -> 1 <= nb <= ny -> jobs_ok jobs cpus -> (ny - 1 + ny / nb - 1) / (ny / nb) = nb ->
  (forall f, f < d -> equal_mass nb (ny / nb) (map (fun k => y k f) (seq 0 ny)) (seps f)) ->
  mp_dissim xpow part (rmat nx d x) (Some (rmat ny d y)) (XFin p) (Z.of_nat nb) "mass" jobs cpus r ->
  exists D, r = Ok D /\ eq2 D (rmat nx ny (fun i j =>
     mp_formula d (nx + ny) (eff_p p) (fun f => massR (seps f) (map (fun k => y k f) (seq 0 ny)) (x i f) (y j f)))).
Proof.
  intros Hp Hd Hn HJ HF HS. apply run_real; auto. rewrite prepare_unfold; [|reflexivity|cbn; lia|assumption]. cbn [String.prefix nrow ncol rmat].
  assert (S0 : 0 < ny / nb) by (apply Nat.div_str_pos; lia).
  set (c := fun f => map (fun k => y k f) (seq 0 ny)).
  assert (LC : forall f, length (c f) = ny) by (intros; unfold c; rewrite map_length, seq_length; reflexivity).
  assert (NE : forall f, c f <> []). { intros f E. apply (f_equal (@length R)) in E. rewrite LC in E. cbn in E. lia. }
  assert (ME : forall f, exists lo hi s, mass_edges part (mpd_kth ny (ny / nb)) (coll (rmat ny d y) f) = Ok (XFin lo :: map XFin s ++ [XFin hi]) /\
    length s = nb - 1 /\ redges_ok lo s hi /\ (forall w, In w (c f) -> (lo <= w <= hi)%R) /\
    forall T, Permutation T (c f) -> StronglySorted Rle T -> s = map (fun k => nth (k * (ny / nb)) T 0%R) (seq 1 (nb - 1))).
  { intros f. rewrite coll_rmat. fold (c f). pose proof (mass_edges_x part PO nb (ny / nb) (c f) ltac:(lia) S0 (NE f)) as M.
    rewrite LC in M. apply M. rewrite kth_length by lia. rewrite HF. reflexivity. }
  destruct (mapM_build (fun f => mass_edges part (mpd_kth ny (ny / nb)) (coll (rmat ny d y) f)) (seq 0 d)) as (E & HE).
  { intros f _. destruct (ME f) as (lo & hi & s & -> & _). eexists. reflexivity. }
  exists E. split; [exact HE|]. intros f Hf. destruct (ME f) as (lo & hi & s & EQ & L & RO & CV & EW).
  exists lo, hi. destruct (HS f Hf) as (T & PT & ST & ES). rewrite ES, <- (EW T PT ST).
  split; [|auto]. destruct (mapM_ok_nth _ _ _ (@nil xr) HE) as [_ Q]. specialize (Q f 0%nat). rewrite seq_length in Q. specialize (Q Hf). rewrite seq_nth in Q by assumption. cbn [Nat.add] in Q.
  rewrite EQ in Q. congruence.
Qed.

(** ** the formula *)
Local Open Scope R_scope.
Lemma rsum_mul c l : rsum (map (fun v => c * v) l) = c * rsum l.
Proof. induction l as [|a l IH]; cbn; [lra|]. unfold rsum in *. cbn. rewrite IH. lra. Qed.
Lemma rsum_const {A} c (l : list A) : rsum (map (fun _ => c) l) = INR (length l) * c.
Proof. induction l as [|a l IH]; [cbn; lra|]. cbn [map length]. rewrite S_INR. unfold rsum in *. cbn [fold_right]. rewrite IH. lra. Qed.
Lemma rsum_le_map {A} (f g : A -> R) l : (forall a, In a l -> f a <= g a) -> rsum (map f l) <= rsum (map g l).
Proof.
  induction l as [|a l IH]; intros H; [cbn; lra|]. unfold rsum in *. cbn [map fold_right].
  pose proof (H a (or_introl eq_refl)). assert (forall b, In b l -> f b <= g b) by (intros; apply H; now right). specialize (IH H1). lra.
Qed.

Lemma formula_mono d t p m m' : (0 < d)%nat -> 0 < p -> (0 < t)%nat -> (forall f, (f < d)%nat -> (m f <= m' f)%nat) -> mp_formula d t p m <= mp_formula d t p m'.
Proof.
  intros Hd Hp Ht H. assert (0 < INR d) by (apply lt_0_INR; lia). assert (0 < INR t) by (apply lt_0_INR; lia).
  assert (I : 0 < / INR d) by (apply Rinv_0_lt_compat; assumption).
  unfold mp_formula. apply powR_le; [|unfold Rdiv; rewrite Rmult_1_l; apply Rinv_0_lt_compat; assumption]. split.
  - apply Rle_mult_inv_pos; [|assumption]. apply rsum_nonneg. intros a Ha. apply in_map_iff in Ha as (f & <- & _). apply powR_ge0.
  - apply Rmult_le_compat_r; [lra|]. apply rsum_le_map. intros f Hf. apply in_seq in Hf. apply powR_le; [|assumption]. split.
    + apply Rle_mult_inv_pos; [apply pos_INR|assumption].
    + apply Rmult_le_compat_r; [left; apply Rinv_0_lt_compat; assumption|]. apply le_INR. apply H. lia.
Qed.
Lemma formula_const d t p c : (0 < d)%nat -> 0 < p -> (0 < t)%nat -> mp_formula d t p (fun _ => c) = INR c / INR t.
Proof.
  intros Hd Hp Ht. assert (0 < INR d) by (apply lt_0_INR; lia). assert (0 < INR t) by (apply lt_0_INR; lia).
  unfold mp_formula. rewrite rsum_const, seq_length.
  replace (INR d * powR (INR c / INR t) p / INR d) with (powR (INR c / INR t) p) by (field; lra).
  apply powR_root; [|assumption]. apply Rle_mult_inv_pos; [apply pos_INR|assumption].
Qed.
Lemma formula_total d t t' p m : (0 < d)%nat -> 0 < p -> (0 < t)%nat -> (0 < t')%nat -> mp_formula d t' p m = mp_formula d t p m * (INR t / INR t').
Proof.
  intros Hd Hp Ht Ht'. assert (0 < INR d) by (apply lt_0_INR; lia). assert (0 < INR t) by (apply lt_0_INR; lia). assert (0 < INR t') by (apply lt_0_INR; lia).
  unfold mp_formula. set (q := INR t / INR t'). assert (Q : 0 <= q) by (apply Rle_mult_inv_pos; lra).
  assert (E : map (fun f => powR (INR (m f) / INR t') p) (seq 0 d) = map (fun v => powR q p * v) (map (fun f => powR (INR (m f) / INR t) p) (seq 0 d))).
  { rewrite map_map. apply map_ext. intros f. rewrite <- powR_prod; [|assumption|apply Rle_mult_inv_pos; [apply pos_INR|assumption]].
    f_equal. unfold q. field. lra. }
  rewrite E, rsum_mul. set (s := rsum _).
  assert (S0 : 0 <= s). { apply rsum_nonneg. intros a Ha. apply in_map_iff in Ha as (f & <- & _). apply powR_ge0. }
  replace (powR q p * s / INR d) with (powR q p * (s / INR d)) by (field; lra).
  rewrite powR_prod; [|apply powR_ge0|apply Rle_mult_inv_pos; assumption]. rewrite powR_root by assumption. apply Rmult_comm.
Qed.

(** ** mass *)
Lemma cellR_mono seps u v : u <= v -> (cellR seps u <= cellR seps v)%nat.
Proof. intros H. unfold cellR. induction seps as [|s l IH]; [cbn; lia|]. cbn. destruct (Rle_dec s u), (Rle_dec s v); cbn; try lia; lra. Qed.
Lemma massR_le seps col u v : (massR seps col u v <= length col)%nat.
Proof. apply filter_len_le. Qed.
Lemma massR_pos seps col u v : In v col -> (1 <= massR seps col u v)%nat.
Proof.
  intros H. unfold massR. assert (I : In v (filter (fun w => (Nat.min (cellR seps u) (cellR seps v) <=? cellR seps w)%nat &&
                           (cellR seps w <=? Nat.max (cellR seps u) (cellR seps v))%nat) col)).
  { apply filter_In. split; [exact H|]. apply andb_true_iff. split; apply Nat.leb_le; lia. }
  destruct (filter _ col); [destruct I|cbn; lia].
Qed.
Lemma filter_incl_len {A} (P Q : A -> bool) l : (forall a, P a = true -> Q a = true) -> (length (filter P l) <= length (filter Q l))%nat.
Proof. intros H. induction l as [|a l IH]; [cbn; lia|]. cbn. destruct (P a) eqn:E; [rewrite (H a E); cbn; lia|destruct (Q a); cbn; lia]. Qed.
Lemma massR_between seps col u v w : (u <= v <= w \/ w <= v <= u) -> (massR seps col u v <= massR seps col u w)%nat.
Proof.
  intros H. apply filter_incl_len. intros a Ha. apply andb_true_iff in Ha as [A B]. apply Nat.leb_le in A, B. apply andb_true_iff.
  destruct H as [[H1 H2]|[H1 H2]]; pose proof (cellR_mono seps _ _ H1); pose proof (cellR_mono seps _ _ H2); split; apply Nat.leb_le; lia.
Qed.
Lemma massR_const seps c n u v : v = c -> massR seps (repeat c n) u v = n.
Proof.
  intros ->. unfold massR. rewrite filter_all; [apply repeat_length|]. intros a Ha. apply repeat_spec in Ha. subst.
  apply andb_true_iff. split; apply Nat.leb_le; lia.
Qed.
Lemma cellR_affine a b seps v : 0 < a -> cellR (map (fun s => a * s + b) seps) (a * v + b) = cellR seps v.
Proof.
  intros Ha. unfold cellR. induction seps as [|s l IH]; [reflexivity|]. cbn [map filter].
  destruct (Rle_dec (a * s + b) (a * v + b)), (Rle_dec s v); cbn [length]; try (rewrite IH; reflexivity); exfalso; nra.
Qed.
Lemma massR_affine a b seps col u v : 0 < a ->
  massR (map (fun s => a * s + b) seps) (map (fun s => a * s + b) col) (a * u + b) (a * v + b) = massR seps col u v.
Proof.
  intros Ha. unfold massR. rewrite !cellR_affine by assumption. induction col as [|w l IH]; [reflexivity|]. cbn [map filter].
  rewrite cellR_affine by assumption. destruct (_ && _); cbn [length]; rewrite IH; reflexivity.
Qed.
(** with constant columns the separators do not matter *)
Lemma equal_width_affine n a b col seps u v seps' : 0 < a -> In v col -> equal_width n col seps ->
  equal_width n (map (fun s => a * s + b) col) seps' -> massR seps' (map (fun s => a * s + b) col) (a * u + b) (a * v + b) = massR seps col u v.
Proof.
  intros Ha Hv HW HW'. destruct HW as (lo & hi & L & H & B & ES).
  destruct (Req_EM_T lo hi) as [Eq|Ne].
  - assert (C : forall w, In w col -> w = lo) by (intros w Hw; pose proof (B w Hw); lra).
    assert (RC : col = repeat lo (length col)) by (apply Forall_eq_repeat; apply Forall_forall; intros w Hw; symmetry; auto).
    rewrite RC at 2. rewrite massR_const by auto. 
    assert (RC' : map (fun s => a * s + b) col = repeat (a * lo + b) (length col)) 
      by (clear - RC; rewrite RC at 1; generalize (length col); induction n as [|k IH]; cbn; [reflexivity|rewrite IH; reflexivity]).
    rewrite RC'. rewrite massR_const; [reflexivity|]. rewrite (C v Hv). reflexivity.
  - assert (W : equal_width n (map (fun s => a * s + b) col) (map (fun s => a * s + b) seps)).
    { exists (a * lo + b), (a * hi + b). split; [apply in_map_iff; eauto|]. split; [apply in_map_iff; eauto|].
      split; [intros w Hw; apply in_map_iff in Hw as (w0 & <- & Hw); pose proof (B w0 Hw); split; nra|].
      rewrite ES, map_map. apply map_ext. intros k. destruct (Req_EM_T (a * lo + b) (a * hi + b)) as [X|X]; [exfalso; apply Ne; nra|].
      unfold Rdiv. ring. }
    rewrite (equal_width_unique _ _ _ _ HW' W). apply massR_affine. exact Ha.
Qed.
