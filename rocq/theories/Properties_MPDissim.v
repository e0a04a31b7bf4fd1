(** The m_p dissimilarity and sampled distances: C112 - C118. *)
From Coq Require Import String Ascii.
From Coq Require Import ZArith Reals Lra Lia Psatz List Arith Bool Permutation Sorting.
From Verif Require Import Py Num NumT NumPow Arr Sort Conc M_IO S_Centering M_SNN M_MPDissim S_MPDissim P_Vec P_MPDissim P_MPDissim2 P_MPDissim3 P_MPDissim4 P_MPDissim5.
Import ListNotations.
Local Open Scope nat_scope.

(** the values of feature f *)
Definition feature (n : nat) (y : nat -> nat -> R) (f : nat) : list R := map (fun k => y k f) (seq 0 n).
(** the exponent used: 0 means 2 *)
Definition used_p (p : R) : R := if Req_EM_T p 0 then 2%R else p.
(** at least one worker process: n_jobs, or the number of processors for -1 *)
Definition workers (jobs : Z) (cpus : nat) : Prop := (1 <= (if jobs =? -1 then Z.of_nat cpus else jobs))%Z.

(** ** C112: the value is the documented formula *)
Theorem C112_range_value :
  forall part nx ny d x y p nb jobs cpus seps r,
    (0 <= p)%R -> 0 < d -> 1 <= nb <= ny -> workers jobs cpus ->
    (forall f, f < d -> equal_width nb (feature ny y f) (seps f)) ->
    mp_dissim xpow part (rmat nx d x) (Some (rmat ny d y)) (XFin p) (Z.of_nat nb) "range" jobs cpus r ->
    exists D, r = Ok D /\
      eq2 D (rmat nx ny (fun i j => mp_formula d (nx + ny) (used_p p) (fun f => massR (seps f) (feature ny y f) (x i f) (y j f)))).
Proof. intros. eapply range_run; eassumption. Qed.

Theorem C112_mass_value :
  forall part, part_ok part -> forall nx ny d x y p nb jobs cpus seps r,
    (0 <= p)%R -> 0 < d -> 1 <= nb <= ny -> workers jobs cpus ->
    (ny - 1 + ny / nb - 1) / (ny / nb) = nb ->
    (forall f, f < d -> equal_mass nb (ny / nb) (feature ny y f) (seps f)) ->
    mp_dissim xpow part (rmat nx d x) (Some (rmat ny d y)) (XFin p) (Z.of_nat nb) "mass" jobs cpus r ->
    exists D, r = Ok D /\
      eq2 D (rmat nx ny (fun i j => mp_formula d (nx + ny) (used_p p) (fun f => massR (seps f) (feature ny y f) (x i f) (y j f)))).
Proof. intros. eapply mass_run; eassumption. Qed.

(** without [Y] the data are compared with themselves *)
Theorem C112_default_Y :
  forall V (N : Num V) vpow part X p nb bin jobs cpus r,
    mp_dissim vpow part X None p nb bin jobs cpus r <-> mp_dissim vpow part X (Some X) p nb bin jobs cpus r.
Proof. intros. rewrite !mpd_outcome. reflexivity. Qed.

(** separators exist, so the theorems apply to all data *)
Lemma equal_width_exists n col : 0 < n -> col <> [] -> exists s, equal_width n col s.
Proof. intros Hn Hc. destruct (range_edges_x n col Hn Hc) as (lo & hi & s & _ & _ & _ & _ & W). eauto. Qed.
Lemma widths n d y nb : 0 < nb -> 0 < n -> exists seps : nat -> list R, forall f, f < d -> equal_width nb (feature n y f) (seps f).
Proof.
  intros Hb Hn. induction d as [|d IH]; [exists (fun _ => []); intros; lia|]. destruct IH as (s & IH).
  destruct (equal_width_exists nb (feature n y d) Hb) as (t & Ht).
  { intros E. apply (f_equal (@length R)) in E. unfold feature in E. rewrite map_length, seq_length in E. cbn in E. lia. }
  exists (fun f => if f =? d then t else s f). intros f Hf. destruct (Nat.eqb_spec f d); [subst; exact Ht|]. apply IH. lia.
Qed.
Lemma sorted_exists (l : list R) : exists T, Permutation T l /\ StronglySorted Rle T.
Proof.
  induction l as [|a l (T & P & S)]; [exists []; split; [reflexivity|constructor]|].
  cut (exists T', Permutation T' (a :: T) /\ StronglySorted Rle T').
  { intros (T' & P' & S'). exists T'. split; [|exact S']. rewrite P', P. reflexivity. }
  clear P. induction S as [|b T S (T' & P' & S') F]; [exists [a]; split; [reflexivity|constructor; constructor]|].
  destruct (Rle_dec a b).
  - exists (a :: b :: T). split; [reflexivity|]. constructor; [constructor; assumption|]. constructor; [assumption|].
    rewrite Forall_forall in *. intros c Hc. specialize (F c Hc). lra.
  - exists (b :: T'). split; [rewrite P'; apply perm_swap|]. constructor; [exact S'|]. rewrite Forall_forall in *. intros c Hc.
    apply (Permutation_in _ P') in Hc. destruct Hc as [<-|Hc]; [lra|auto].
Qed.
Lemma masses n d y nb s : exists seps : nat -> list R, forall f, f < d -> equal_mass nb s (feature n y f) (seps f).
Proof.
  induction d as [|d IH]; [exists (fun _ => []); intros; lia|]. destruct IH as (q & IH).
  destruct (sorted_exists (feature n y d)) as (T & P & S).
  exists (fun f => if f =? d then map (fun k => nth (k * s) T 0%R) (seq 1 (nb - 1)) else q f). intros f Hf.
  destruct (Nat.eqb_spec f d); [subst; exists T; auto|]. apply IH. lia.
Qed.

(** what the next theorems need of an accepted call: bins of either kind *)
Definition binning (bin : string) (nb ny : nat) : Prop :=
  bin = "range"%string \/ (bin = "mass"%string /\ (ny - 1 + ny / nb - 1) / (ny / nb) = nb).

Lemma any_value part (PO : part_ok part) nx ny d x y p nb bin jobs cpus r :
  (0 <= p)%R -> 0 < d -> 1 <= nb <= ny -> workers jobs cpus -> binning bin nb ny ->
  mp_dissim xpow part (rmat nx d x) (Some (rmat ny d y)) (XFin p) (Z.of_nat nb) bin jobs cpus r ->
  exists seps D, r = Ok D /\
      (forall f, f < d -> (bin = "range"%string -> equal_width nb (feature ny y f) (seps f)) /\ (bin = "mass"%string -> equal_mass nb (ny / nb) (feature ny y f) (seps f))) /\
      eq2 D (rmat nx ny (fun i j => mp_formula d (nx + ny) (used_p p) (fun f => massR (seps f) (feature ny y f) (x i f) (y j f)))).
Proof.
  intros Hp Hd Hn HJ [->|[-> HF]] H.
  - destruct (widths ny d y nb ltac:(lia) ltac:(lia)) as (seps & W). exists seps.
    destruct (C112_range_value part nx ny d x y p nb jobs cpus seps r Hp Hd Hn HJ W H) as (D & E & Q). exists D. split; [exact E|]. split; [|exact Q].
    intros f Hf. split; [auto|discriminate].
  - destruct (masses ny d y nb (ny / nb)) as (seps & W). exists seps.
    destruct (C112_mass_value part PO nx ny d x y p nb jobs cpus seps r Hp Hd Hn HJ HF W H) as (D & E & Q). exists D. split; [exact E|]. split; [|exact Q].
    intros f Hf. split; [discriminate|auto].
Qed.
Lemma used_p_pos p : (0 <= p)%R -> (0 < used_p p)%R.
Proof. apply eff_p_pos. Qed.
Lemma in_feature n y f j : j < n -> In (y j f) (feature n y f).
Proof. intros H. apply in_map_iff. exists j. split; [reflexivity|apply in_seq; lia]. Qed.
Lemma feature_len n y f : length (feature n y f) = n.
Proof. unfold feature. rewrite map_length, seq_length. reflexivity. Qed.

(** ** C113: order and bounds *)
Theorem C113_bounds :
  forall part, part_ok part -> forall nx ny d x y p nb bin jobs cpus r,
    (0 <= p)%R -> 0 < d -> 1 <= nb <= ny -> workers jobs cpus -> binning bin nb ny ->
    mp_dissim xpow part (rmat nx d x) (Some (rmat ny d y)) (XFin p) (Z.of_nat nb) bin jobs cpus r ->
    exists D, r = Ok D /\ nrow D = nx /\ ncol D = ny /\ forall i j, i < nx -> j < ny ->
      exists v, at2 D i j = XFin v /\ (1 / INR (nx + ny) <= v <= INR ny / INR (nx + ny))%R.
Proof.
  intros part PO nx ny d x y p nb bin jobs cpus r Hp Hd Hn HJ HB H.
  destruct (any_value part PO _ _ _ _ _ _ _ _ _ _ _ Hp Hd Hn HJ HB H) as (seps & D & -> & _ & Q1 & Q2 & Q3).
  exists D. split; [reflexivity|]. split; [exact Q1|]. split; [exact Q2|]. cbn [nrow ncol rmat] in Q1, Q2.
  intros i j Hi Hj. rewrite Q3 by lia. cbn [at2 rmat]. eexists. split; [reflexivity|].
  pose proof (used_p_pos p Hp) as P. set (g := used_p p) in *.
  replace (1 / INR (nx + ny))%R with (mp_formula d (nx + ny) g (fun _ => 1)) by (rewrite formula_const by (auto; lia); reflexivity).
  replace (INR ny / INR (nx + ny))%R with (mp_formula d (nx + ny) g (fun _ => ny)) by (rewrite formula_const by (auto; lia); reflexivity).
  split; apply formula_mono; auto; try lia; intros f Hf.
  - apply massR_pos. apply in_feature. exact Hj.
  - etransitivity; [apply massR_le|]. rewrite feature_len. lia.
Qed.

(** an object of Y whose features all lie between those of x and of another object
    is not farther from x than that object *)
Theorem C113_between :
  forall part, part_ok part -> forall nx ny d x y p nb bin jobs cpus D,
    (0 <= p)%R -> 0 < d -> 1 <= nb <= ny -> workers jobs cpus -> binning bin nb ny ->
    mp_dissim xpow part (rmat nx d x) (Some (rmat ny d y)) (XFin p) (Z.of_nat nb) bin jobs cpus (Ok D) ->
    forall i j k, i < nx -> j < ny -> k < ny ->
    (forall f, f < d -> (x i f <= y j f <= y k f \/ y k f <= y j f <= x i f)%R) ->
    nle (at2 D i j) (at2 D i k) = true.
Proof.
  intros part PO nx ny d x y p nb bin jobs cpus D Hp Hd Hn HJ HB H i j k Hi Hj Hk HF.
  destruct (any_value part PO _ _ _ _ _ _ _ _ _ _ _ Hp Hd Hn HJ HB H) as (seps & D' & E & _ & Q1 & Q2 & Q3). injection E as <-.
  cbn [nrow ncol rmat] in Q1, Q2. rewrite !Q3 by lia. cbn [at2 rmat]. apply xle_fin.
  apply formula_mono; [exact Hd|apply used_p_pos; exact Hp|lia|]. intros f Hf. apply massR_between. apply HF. exact Hf.
Qed.

(** all objects against each other: symmetric in every arithmetic, each object is
    its own nearest neighbour, but never at distance 0; nothing exceeds 1/2 *)
Theorem C113_symmetric :
  forall V (N : Num V) vpow part X p nb bin jobs cpus D,
    mp_dissim vpow part X None p nb bin jobs cpus (Ok D) ->
    forall i j, i < nrow X -> j < nrow X -> at2 D i j = at2 D j i.
Proof.
  intros V N vpow part X p nb bin jobs cpus D H i j Hi Hj. apply mpd_ok_value in H. cbn zeta in H. cbn [arg2] in H.
  destruct H as (E & _ & _ & Q1 & Q2 & Q3). cbn [nrow ncol] in Q1, Q2. rewrite !Q3 by lia. cbn [at2].
  unfold mpd_final, mpd_cell. f_equal. f_equal. apply fold_ext_in. intros acc f _. f_equal. f_equal. f_equal. f_equal.
  unfold R_of. destruct (Nat.leb_spec (mpd_bin (Z.to_nat nb) (nth f E []) (at2 X i f)) (mpd_bin (Z.to_nat nb) (nth f E []) (at2 X j f))),
    (Nat.leb_spec (mpd_bin (Z.to_nat nb) (nth f E []) (at2 X j f)) (mpd_bin (Z.to_nat nb) (nth f E []) (at2 X i f))); try reflexivity; try lia.
  f_equal; lia.
Qed.

Theorem C113_self :
  forall part, part_ok part -> forall n d x p nb bin jobs cpus r,
    (0 <= p)%R -> 0 < d -> 1 <= nb <= n -> workers jobs cpus -> binning bin nb n ->
    mp_dissim xpow part (rmat n d x) None (XFin p) (Z.of_nat nb) bin jobs cpus r ->
    exists D, r = Ok D /\ forall i j, i < n -> j < n ->
      nle (at2 D i i) (at2 D i j) = true /\ exists v, at2 D i j = XFin v /\ (0 < v <= 1 / 2)%R.
Proof.
  intros part PO n d x p nb bin jobs cpus r Hp Hd Hn HJ HB H. apply C112_default_Y in H.
  destruct (C113_bounds part PO _ _ _ _ _ _ _ _ _ _ _ Hp Hd Hn HJ HB H) as (D & -> & _ & _ & B). exists D. split; [reflexivity|].
  intros i j Hi Hj. split.
  - apply (C113_between part PO _ _ _ _ _ _ _ _ _ _ _ Hp Hd Hn HJ HB H); auto. intros f _. destruct (Rle_dec (x i f) (x j f)); [left|right]; lra.
  - destruct (B i j Hi Hj) as (v & E & L & U). exists v. split; [exact E|].
    assert (P : (0 < INR n)%R) by (apply lt_0_INR; lia). rewrite plus_INR in *.
    replace (INR n / (INR n + INR n))%R with (1 / 2)%R in U by (field; lra). split; [|exact U].
    eapply Rlt_le_trans; [|exact L]. unfold Rdiv. rewrite Rmult_1_l. apply Rinv_0_lt_compat. lra.
Qed.

(** ** C114: neither the number of worker processes nor the schedule matters *)
Theorem C114_deterministic :
  forall V (N : Num V) vpow part X Y p nb bin jobs cpus jobs' cpus' r r',
    workers jobs cpus -> workers jobs' cpus' ->
    mp_dissim vpow part X Y p nb bin jobs cpus r -> mp_dissim vpow part X Y p nb bin jobs' cpus' r' ->
    match r, r' with Ok D, Ok D' => eq2 D D' | Raise e, Raise e' => e = e' | _, _ => False end.
Proof.
  intros V N vpow part X Y p nb bin jobs cpus jobs' cpus' r r' HJ HJ' H H'.
  assert (PE : mpd_prepare part X (arg2 X Y) nb bin jobs' cpus' = mpd_prepare part X (arg2 X Y) nb bin jobs cpus).
  { unfold workers in *. unfold mpd_prepare.
    replace ((if (jobs =? -1)%Z then Z.of_nat cpus else jobs) <? 1)%Z with false by (symmetry; apply Z.ltb_ge; lia).
    replace ((if (jobs' =? -1)%Z then Z.of_nat cpus' else jobs') <? 1)%Z with false by (symmetry; apply Z.ltb_ge; lia). reflexivity. }
  pose proof H as G. pose proof H' as G'. apply mpd_outcome in H. apply mpd_outcome in H'. cbn zeta in H, H'. rewrite PE in H'.
  destruct (mpd_prepare part X (arg2 X Y) nb bin jobs cpus) as [E|e] eqn:HP; [|subst; reflexivity].
  destruct (fit_all (Z.to_nat nb) (ncol X) (arg2 X Y) E) eqn:F; [|subst; reflexivity].
  destruct H as (D & -> & _), H' as (D' & -> & _). apply mpd_ok_value in G. apply mpd_ok_value in G'. cbn zeta in G, G'.
  destruct G as (E1 & P1 & _ & A1 & A2 & A3), G' as (E2 & P2 & _ & B1 & B2 & B3). rewrite PE in P2. rewrite HP in P1. injection P1 as <-. injection P2 as <-.
  cbn [nrow ncol at2] in *. split; [congruence|]. split; [congruence|]. intros i j Hi Hj. rewrite A3, B3 by (lia || congruence). reflexivity.
Qed.
Theorem C114_terminates :
  forall V (N : Num V) vpow part X Y p nb bin jobs cpus, exists r, mp_dissim vpow part X Y p nb bin jobs cpus r.
Proof. intros. apply mpd_exists. Qed.

(** ** C115: which arguments are accepted *)
(** the default number of bins, 0, is never accepted *)
Theorem C115_default_bins_fail :
  forall V (N : Num V) vpow part X Y p bin jobs cpus r,
    mp_dissim vpow part X Y p 0 bin jobs cpus r -> r = Raise AssertionError \/ r = Raise ZeroDivisionError.
Proof.
  intros V N vpow part X Y p bin jobs cpus r H. apply mpd_outcome in H. cbn zeta in H. unfold mpd_prepare in H.
  destruct (negb (ncol X =? ncol (arg2 X Y))); cbn in H; auto.
Qed.
(** nor are negative numbers, or more bins than objects, whatever the kind of bins *)
Theorem C115_too_many_bins_fail :
  forall V (N : Num V) vpow part X Y p nb bin jobs cpus r,
    ncol X = ncol Y -> (nb < 0 \/ Z.of_nat (nrow Y) < nb)%Z ->
    mp_dissim vpow part X (Some Y) p nb bin jobs cpus r -> r = Raise ValueError.
Proof.
  intros V N vpow part X Y p nb bin jobs cpus r HC HB H. apply mpd_outcome in H. cbn zeta in H. cbn [arg2] in H. unfold mpd_prepare in H.
  rewrite HC, Nat.eqb_refl in H. cbn [negb guard bind] in H. destruct (Z.ltb_spec nb 0); cbn [guard bind] in H; [exact H|].
  replace (nb =? 0)%Z with false in H by (symmetry; apply Z.eqb_neq; lia). cbn [guard bind] in H. unfold mpd_step in H.
  rewrite (Nat.div_small (nrow Y) (Z.to_nat nb)) in H by lia. cbn in H. exact H.
Qed.
(** bins of equal mass: accepted exactly when cutting the sorted objects every
    floor(n / bins) positions gives that many bins.  As many bins as objects is
    never accepted *)
Theorem C115_mass_accepted :
  forall V (N : Num V) toX (CL : CmpLaws V N toX) vpow part, part_ok part -> forall X Y p nb jobs cpus r,
    ncol X = ncol Y -> 0 < ncol X -> 1 <= nb <= nrow Y -> workers jobs cpus ->
    (forall i f, i < nrow X -> f < ncol X -> nisnan (at2 X i f) = false) ->
    (forall j f, j < nrow Y -> f < ncol X -> nisnan (at2 Y j f) = false) ->
    mp_dissim vpow part X (Some Y) p (Z.of_nat nb) "mass" jobs cpus r ->
    ((exists D, r = Ok D) <-> (nrow Y - 1 + nrow Y / nb - 1) / (nrow Y / nb) = nb) /\
    ((forall D, r <> Ok D) -> r = Raise ValueError).
Proof.
  intros V N toX CL vpow part PO X Y p nb jobs cpus r HC Hd Hn HJ HX HY H.
  destruct (Nat.eq_dec ((nrow Y - 1 + nrow Y / nb - 1) / (nrow Y / nb)) nb) as [E|E].
  - destruct (mass_ok CL vpow part PO X Y p nb jobs cpus r HC Hn HJ E HX HY H) as (D & -> & _).
    split; [split; [auto|eauto]|]. intros F. exfalso. exact (F D eq_refl).
  - rewrite (mass_misfit vpow part PO X Y p nb jobs cpus r HC Hd Hn HJ E H). split; [|auto]. split; [intros (D & X0); discriminate|contradiction].
Qed.
Theorem C115_mass_one_object_per_bin :
  forall V (N : Num V) vpow part, part_ok part -> forall X Y p jobs cpus r,
    ncol X = ncol Y -> 0 < ncol X -> 1 <= nrow Y -> workers jobs cpus ->
    mp_dissim vpow part X (Some Y) p (Z.of_nat (nrow Y)) "mass" jobs cpus r -> r = Raise ValueError.
Proof.
  intros V N vpow part PO X Y p jobs cpus r HC Hd Hn HJ H.
  apply (mass_misfit vpow part PO X Y p (nrow Y) jobs cpus r HC Hd ltac:(lia) HJ); [|exact H].
  rewrite Nat.div_same by lia. rewrite Nat.div_1_r. lia.
Qed.
Fixpoint prefixes (t : string) : list string :=
  match t with EmptyString => [EmptyString] | String c t' => EmptyString :: map (String c) (prefixes t') end.
Lemma prefix_list s t : String.prefix s t = existsb (String.eqb s) (prefixes t).
Proof.
  revert s. induction t as [|c t IH]; intros [|a s]; try reflexivity. cbn [String.prefix prefixes existsb String.eqb orb].
  transitivity (existsb (fun q => String.eqb (String a s) (String c q)) (prefixes t)).
  - cbn [String.eqb]. destruct (ascii_dec a c) as [<-|Ha].
    + rewrite Ascii.eqb_refl. apply IH.
    + replace (Ascii.eqb a c) with false by (symmetry; apply Ascii.eqb_neq; exact Ha). clear. induction (prefixes t) as [|q l IH]; [reflexivity|exact IH].
  - clear. induction (prefixes t) as [|q l IH]; [reflexivity|]. cbn [map existsb]. rewrite IH. reflexivity.
Qed.
(** any beginning of 'mass' or 'range' selects the kind of bins; the empty string
    means 'mass' *)
Theorem C115_bin_names :
  forall V (N : Num V) vpow part X Y p nb bin jobs cpus r,
    mp_dissim vpow part X Y p nb bin jobs cpus r <->
    if existsb (String.eqb bin) [""; "m"; "ma"; "mas"; "mass"]%string then mp_dissim vpow part X Y p nb "mass" jobs cpus r
    else if existsb (String.eqb bin) ["r"; "ra"; "ran"; "rang"; "range"]%string then mp_dissim vpow part X Y p nb "range" jobs cpus r
    else exists e, r = Raise e /\ mp_dissim vpow part X Y p nb bin jobs cpus (Raise e).
Proof.
  intros V N vpow part X Y p nb bin jobs cpus r.
  assert (PM : String.prefix bin "mass" = existsb (String.eqb bin) [""; "m"; "ma"; "mas"; "mass"]%string).
  { apply prefix_list. }
  assert (PR : bin <> ""%string -> String.prefix bin "range" = existsb (String.eqb bin) ["r"; "ra"; "ran"; "rang"; "range"]%string).
  { intros Hb. rewrite prefix_list. change (prefixes "range") with ("" :: ["r"; "ra"; "ran"; "rang"; "range"])%string. cbn [existsb].
    apply String.eqb_neq in Hb. rewrite Hb. reflexivity. }
  destruct (existsb (String.eqb bin) [""; "m"; "ma"; "mas"; "mass"]%string) eqn:EM.
  - rewrite !mpd_outcome. cbn zeta. replace (mpd_prepare part X (arg2 X Y) nb bin jobs cpus) with (mpd_prepare part X (arg2 X Y) nb "mass" jobs cpus); [reflexivity|].
    unfold mpd_prepare. rewrite PM. reflexivity.
  - assert (NB : bin <> ""%string) by (intros ->; discriminate). specialize (PR NB).
    destruct (existsb (String.eqb bin) ["r"; "ra"; "ran"; "rang"; "range"]%string) eqn:ER.
    + rewrite !mpd_outcome. cbn zeta. replace (mpd_prepare part X (arg2 X Y) nb bin jobs cpus) with (mpd_prepare part X (arg2 X Y) nb "range" jobs cpus); [reflexivity|].
      unfold mpd_prepare. rewrite PM, PR. reflexivity.
    + split; [|intros (e & -> & H); exact H]. intros H. destruct r as [D|e]; [|eauto]. exfalso.
      apply mpd_ok_value in H. cbn zeta in H. destruct H as (E & HP & _). unfold mpd_prepare in HP. rewrite PM, PR in HP.
      repeat match type of HP with (guard ?c _ ;; _)%py = _ => destruct c; cbn [guard bind] in HP; try discriminate end.
Qed.

(** ** C116: what the result depends on *)
(** bins of equal mass: only the order of the values of each feature matters, also
    in floating point, and not even numpy's choice among ties *)
Theorem C116_mass_depends_on_order :
  forall V (N : Num V) toX (CL : CmpLaws V N toX) vpow part part', part_ok part -> part_ok part' ->
  forall X Y X' Y' p nb jobs cpus jobs' cpus' r r',
    ncol X = ncol Y -> nrow X' = nrow X -> ncol X' = ncol X -> nrow Y' = nrow Y -> ncol Y' = ncol Y ->
    0 < ncol X -> 1 <= nb <= nrow Y -> workers jobs cpus -> workers jobs' cpus' ->
    (forall f, f < ncol X ->
       (forall i, i < nrow X -> nisnan (at2 X i f) = false /\ nisnan (at2 X' i f) = false) /\
       (forall j, j < nrow Y -> nisnan (at2 Y j f) = false /\ nisnan (at2 Y' j f) = false) /\
       (forall j i, j < nrow Y -> i < nrow X -> nle (at2 Y j f) (at2 X i f) = nle (at2 Y' j f) (at2 X' i f)) /\
       (forall j k, j < nrow Y -> k < nrow Y -> nle (at2 Y j f) (at2 Y k f) = nle (at2 Y' j f) (at2 Y' k f))) ->
    mp_dissim vpow part X (Some Y) p (Z.of_nat nb) "mass" jobs cpus r ->
    mp_dissim vpow part' X' (Some Y') p (Z.of_nat nb) "mass" jobs' cpus' r' ->
    match r, r' with Ok D, Ok D' => eq2 D D' | Raise e, Raise e' => e = e' | _, _ => False end.
Proof.
  intros V N toX CL vpow part part' PO PO' X Y X' Y' p nb jobs cpus jobs' cpus' r r' HC HX HXc HY HYc Hd Hn HJ HJ' HO H H'.
  destruct (Nat.eq_dec ((nrow Y - 1 + nrow Y / nb - 1) / (nrow Y / nb)) nb) as [E|E].
  - destruct (mass_ok CL vpow part PO X Y p nb jobs cpus r HC Hn HJ E) as (D & -> & A1 & A2 & A3); auto; try (intros; apply (HO f); assumption).
    destruct (mass_ok CL vpow part' PO' X' Y' p nb jobs' cpus' r') as (D' & -> & B1 & B2 & B3); auto; rewrite ?HX, ?HY, ?HXc, ?HYc; auto; try (intros; apply (HO f); assumption).
    cbn [nrow ncol at2] in *. split; [congruence|]. split; [congruence|]. intros i j Hi Hj. rewrite A3, B3 by (lia || congruence).
    rewrite A1 in Hi. rewrite A2 in Hj. unfold mass_value. rewrite HX, HY, HXc. f_equal. f_equal. apply fold_ext_in. intros acc f Hf. apply in_seq in Hf.
    destruct (HO f ltac:(lia)) as (_ & _ & O1 & O2). f_equal. f_equal. f_equal. f_equal.
    assert (L : length (coll Y f) = nrow Y) by (unfold coll; rewrite map_length, seq_length; reflexivity).
    assert (L' : length (coll Y' f) = nrow Y) by (unfold coll; rewrite map_length, seq_length, HY; reflexivity).
    apply rmass_ext; [congruence| | |]; rewrite L.
    + intros k l Hk Hl. rewrite !nth_coll by lia. apply O2; assumption.
    + intros k Hk. rewrite !nth_coll by lia. apply O1; assumption.
    + intros k Hk. rewrite !nth_coll by lia. apply O2; assumption.
  - rewrite (mass_misfit vpow part PO X Y p nb jobs cpus r HC Hd Hn HJ E H).
    rewrite (mass_misfit vpow part' PO' X' Y' p nb jobs' cpus' r'); auto; rewrite ?HX, ?HY, ?HXc, ?HYc; auto.
Qed.

(** bins of equal width: each feature may be shifted and stretched *)
Theorem C116_range_affine :
  forall part nx ny d x y a b p nb jobs cpus jobs' cpus' r r',
    (0 <= p)%R -> 0 < d -> 1 <= nb <= ny -> workers jobs cpus -> workers jobs' cpus' -> (forall f, f < d -> (0 < a f)%R) ->
    mp_dissim xpow part (rmat nx d x) (Some (rmat ny d y)) (XFin p) (Z.of_nat nb) "range" jobs cpus r ->
    mp_dissim xpow part (rmat nx d (fun i f => a f * x i f + b f)%R) (Some (rmat ny d (fun j f => a f * y j f + b f)%R)) (XFin p) (Z.of_nat nb) "range" jobs' cpus' r' ->
    exists D D', r = Ok D /\ r' = Ok D' /\ eq2 D' D.
Proof.
  intros part nx ny d x y a b p nb jobs cpus jobs' cpus' r r' Hp Hd Hn HJ HJ' Ha H H'.
  destruct (widths ny d y nb ltac:(lia) ltac:(lia)) as (s & W).
  destruct (widths ny d (fun j f => a f * y j f + b f)%R nb ltac:(lia) ltac:(lia)) as (s' & W').
  destruct (C112_range_value part nx ny d x y p nb jobs cpus s r Hp Hd Hn HJ W H) as (D & -> & A1 & A2 & A3).
  destruct (C112_range_value part nx ny d _ _ p nb jobs' cpus' s' r' Hp Hd Hn HJ' W' H') as (D' & -> & B1 & B2 & B3).
  exists D, D'. split; [reflexivity|]. split; [reflexivity|]. cbn [nrow ncol rmat] in *. split; [congruence|]. split; [congruence|].
  intros i j Hi Hj. rewrite A3, B3 by (lia || congruence). cbn [at2 rmat]. rewrite B1 in Hi. rewrite B2 in Hj. f_equal. unfold mp_formula. f_equal. f_equal. f_equal.
  apply map_ext_in. intros f Hf. apply in_seq in Hf. f_equal. f_equal. f_equal.
  assert (FE : feature ny (fun j f => a f * y j f + b f)%R f = map (fun v => a f * v + b f)%R (feature ny y f)) by (unfold feature; rewrite map_map; reflexivity).
  specialize (W' f ltac:(lia)). rewrite FE in *.
  apply (equal_width_affine nb (a f) (b f) (feature ny y f) (s f) (x i f) (y j f) (s' f)); auto; [apply Ha; lia|apply in_feature; exact Hj|apply W; lia].
Qed.

(** ** C117: the dissimilarities of the same pair change when other queries are
    added, although only the objects of Y make up the mass *)
Theorem C117_depends_on_number_of_queries :
  forall part, part_ok part -> forall nx nx' ny d x y p nb bin jobs cpus D D',
    (0 <= p)%R -> 0 < d -> 1 <= nb <= ny -> workers jobs cpus -> binning bin nb ny ->
    mp_dissim xpow part (rmat nx d x) (Some (rmat ny d y)) (XFin p) (Z.of_nat nb) bin jobs cpus (Ok D) ->
    mp_dissim xpow part (rmat nx' d x) (Some (rmat ny d y)) (XFin p) (Z.of_nat nb) bin jobs cpus (Ok D') ->
    forall i j, i < nx -> i < nx' -> j < ny ->
    exists v, at2 D i j = XFin v /\ (0 < v)%R /\ at2 D' i j = XFin (v * (INR (nx + ny) / INR (nx' + ny))).
Proof.
  intros part PO nx nx' ny d x y p nb bin jobs cpus D D' Hp Hd Hn HJ HB H H' i j Hi Hi' Hj.
  destruct (any_value part PO _ _ _ _ _ _ _ _ _ _ _ Hp Hd Hn HJ HB H) as (s & D0 & E & W & A1 & A2 & A3). injection E as <-.
  destruct (any_value part PO _ _ _ _ _ _ _ _ _ _ _ Hp Hd Hn HJ HB H') as (s' & D0 & E & W' & B1 & B2 & B3). injection E as <-.
  destruct (C113_bounds part PO _ _ _ _ _ _ _ _ _ _ _ Hp Hd Hn HJ HB H) as (D0 & E & _ & _ & BD). injection E as <-.
  destruct (BD i j Hi Hj) as (v & Ev & L & _). exists v. split; [exact Ev|]. split.
  { eapply Rlt_le_trans; [|exact L]. unfold Rdiv. rewrite Rmult_1_l. apply Rinv_0_lt_compat. apply lt_0_INR. lia. }
  cbn [nrow ncol rmat] in *. rewrite A3 in Ev by lia. rewrite B3 by lia. cbn [at2 rmat] in *. injection Ev as <-. f_equal.
  rewrite (formula_total d (nx + ny) (nx' + ny)) by (auto using used_p_pos; lia). f_equal.
  unfold mp_formula. f_equal. f_equal. f_equal. apply map_ext_in. intros f Hf. apply in_seq in Hf. f_equal. f_equal. f_equal.
  destruct (W f ltac:(lia)) as [R1 M1], (W' f ltac:(lia)) as [R2 M2].
  replace (s' f) with (s f); [reflexivity|]. destruct HB as [->|[-> _]].
  - exact (equal_width_unique _ _ _ _ (R1 eq_refl) (R2 eq_refl)).
  - destruct (M1 eq_refl) as (T & PT & ST & ->), (M2 eq_refl) as (T' & PT' & ST' & ->). apply map_ext. intros k.
    destruct (le_lt_dec (length T) (k * (ny / nb))) as [G|G].
    + rewrite !nth_overflow; [reflexivity| |exact G]. rewrite (Permutation_length PT'), <- (Permutation_length PT). exact G.
    + apply rank_unique; [rewrite PT, PT'; reflexivity|apply sorted_rank; assumption|apply sorted_rank; [assumption|]].
      rewrite (Permutation_length PT'), <- (Permutation_length PT). exact G.
Qed.

(** ** C118: distances to a sample *)
Lemma labels_check n d m : check_vector_matrix_shape_fits_labels (Dense [n; d]) (Dense [m]) = Ok tt <-> m = n.
Proof.
  assert (E : check_vector_matrix_shape_fits_labels (Dense [n; d]) (Dense [m]) = guard (negb (m * 1 =? n)) TypeError) by reflexivity.
  rewrite E, Nat.mul_1_r. destruct (Nat.eqb_spec m n); cbn; split; intros; auto; try discriminate; contradiction.
Qed.
Theorem C118_sample_distances :
  forall V (N : Num V) (cdist : nat -> (nat -> V) -> (nat -> V) -> V) (X : arr2 V) y s strategy D l,
    sample_distance cdist X y s strategy (Ok (D, l)) ->
    strategy = "a"%string /\ length y = nrow X /\
    Z.of_nat (length l) = match s with SInt z => z | SOther q => q (nrow X) end /\ 1 <= length l < nrow X /\
    NoDup l /\ (forall i, In i l -> i < nrow X) /\
    nrow D = nrow X /\ ncol D = length l /\
    (forall i a, i < nrow X -> a < length l -> at2 D i a = cdist (ncol X) (at2 X i) (at2 X (nth a l 0))).
Proof.
  intros V N cdist X y s strategy D l H. inversion H as [| | |l' CK ST SP]; subst. inversion SP as [l' R1 R2 R3 R4|]; subst.
  split; [reflexivity|]. split.
  { apply labels_check in CK. exact CK. }
  split; [exact R2|]. split; [lia|]. repeat split; auto.
Qed.
(** only strategy 'a' exists *)
Theorem C118_strategies :
  forall V (N : Num V) (cdist : nat -> (nat -> V) -> (nat -> V) -> V) (X : arr2 V) y s strategy r,
    length y = nrow X -> strategy <> "a"%string ->
    sample_distance cdist X y s strategy r -> r = Raise NotImplementedError.
Proof. intros V N cdist X y s strategy r L HS H. inversion H as [e CK| | |]; subst; try contradiction; [|reflexivity].
  exfalso. pose proof (proj2 (labels_check (nrow X) (ncol X) (length y)) L). congruence. Qed.
(** an integer that is not a Python int (numpy's integers are not) is taken for a
    fraction: k is multiplied by the number of objects, and the call always fails *)
Theorem C118_numpy_integer_sizes_fail :
  forall V (N : Num V) (cdist : nat -> (nat -> V) -> (nat -> V) -> V) (X : arr2 V) y k strategy r,
    (1 <= k)%Z -> sample_distance cdist X y (SOther (fun n => k * Z.of_nat n)%Z) strategy r ->
    exists e, r = Raise e.
Proof.
  intros V N cdist X y k strategy r Hk H. inversion H as [e| |e|l CK ST SP]; subst; eauto. exfalso.
  inversion SP as [l' R1 R2 R3 R4|]; subst. cbn [sample_number] in R1. nia.
Qed.

(** ** concrete cases *)
(** four objects 0, 1, 2, 3 with one feature, two bins: [0, 1.5) and [1.5, 3].
    Mass of {0, 1}: 2 of 8; from 0 to 3: all 4 of 8 *)
Definition ex_y : nat -> nat -> R := fun k _ => INR k.
Lemma ex_width : equal_width 2 (feature 4 ex_y 0) [3 / 2]%R.
Proof.
  exists 0%R, 3%R. unfold feature, ex_y. cbn. repeat split; try (repeat (try (left; lra); right); fail).
  - intuition subst; lra.
  - intuition subst; lra.
  - destruct (Req_EM_T 0 3); [lra|]. f_equal. lra.
Qed.
Lemma ex_cell (k : nat) : cellR [3 / 2]%R (INR k) = if 2 <=? k then 1 else 0.
Proof.
  unfold cellR. cbn [filter length]. destruct (Nat.leb_spec 2 k) as [H|H]; destruct (Rle_dec (3 / 2) (INR k)) as [L|L]; try reflexivity; exfalso.
  - apply L. apply le_INR in H. cbn in H. lra.
  - assert (K : k <= 1) by lia. apply le_INR in K. cbn in K. lra.
Qed.
Lemma ex_mass (a b : nat) : massR [3 / 2]%R (feature 4 ex_y 0) (INR a) (INR b) =
  if ((2 <=? a) && (2 <=? b)) || (negb (2 <=? a) && negb (2 <=? b)) then 2 else 4.
Proof.
  unfold massR, feature, ex_y. cbn [seq map filter]. rewrite !ex_cell. destruct (2 <=? a), (2 <=? b); reflexivity.
Qed.
Example C112_case :
  forall r, mp_dissim xpow ref_part (rmat 4 1 ex_y) None (XFin 1) 2 "range" 3 8 r ->
  exists D, r = Ok D /\ at2 D 0 0 = XFin (1 / 4) /\ at2 D 0 1 = XFin (1 / 4) /\ at2 D 0 3 = XFin (1 / 2).
Proof.
  intros r H. apply C112_default_Y in H.
  destruct (C112_range_value ref_part 4 4 1 ex_y ex_y 1 2 3 8 (fun _ => [3 / 2]%R) r) as (D & -> & A1 & A2 & A3); auto; try lra; try lia; [unfold workers; cbn; lia| |].
  { intros f Hf. assert (f = 0) by lia. subst. exact ex_width. }
  exists D. split; [reflexivity|]. cbn [nrow ncol rmat] in A1, A2. rewrite !A3 by lia. cbn [at2 rmat].
  assert (U : used_p 1 = 1%R) by (unfold used_p; destruct (Req_EM_T 1 0); lra).
  assert (F : forall j m, massR [3 / 2]%R (feature 4 ex_y 0) (INR 0) (INR j) = m -> mp_formula 1 (4 + 4) (used_p 1) (fun f => massR [3 / 2]%R (feature 4 ex_y f) (ex_y 0 f) (ex_y j f)) = (INR m / INR 8)%R).
  { intros j m M. rewrite U. rewrite <- (formula_const 1 8 1 m) by (lra || lia). unfold mp_formula. cbn [seq map]. unfold ex_y at 2 3. rewrite M. reflexivity. }
  split; [|split]; f_equal; erewrite F by (apply ex_mass); cbn; lra.
Qed.
Example C112_case_run : exists r, mp_dissim xpow ref_part (rmat 4 1 ex_y) None (XFin 1) 2 "range" 3 8 r.
Proof. apply C114_terminates. Qed.

(** bins of equal mass: five objects in two bins are accepted, four in four are not *)
Example C112_mass_case :
  (5 - 1 + 5 / 2 - 1) / (5 / 2) = 2 /\ (forall n, 2 <= n -> (n - 1 + n / 1 - 1) / (n / 1) = 1) /\
  part_ok (V := xr) ref_part /\ workers (-1) 4 /\ workers 2 0 /\
  exists seps : nat -> list R, forall f, f < 3 -> equal_mass 2 (5 / 2) (feature 5 (fun k f => INR (k * (f + 1))) f) (seps f).
Proof.
  split; [reflexivity|]. split.
  { intros n H. rewrite Nat.div_1_r. symmetry. apply (Nat.div_unique _ _ _ (n - 2)); lia. }
  split; [apply (ref_part_ok xr_cmp)|]. split; [unfold workers; cbn; lia|]. split; [unfold workers; cbn; lia|]. apply masses.
Qed.
Example C115_case :
  let X := Arr2 4 2 (fun i f => @nofnat f64 _ (i * i + f)) in
  exists r, mp_dissim (fun a _ => a) ref_part X (Some X) n1 4 "mass" 1 1 r /\ r = Raise ValueError.
Proof.
  intros X. destruct (C114_terminates f64 _ (fun a _ => a) ref_part X (Some X) n1 4 "mass" 1 1) as (r & H). exists r. split; [exact H|].
  apply (C115_mass_one_object_per_bin f64 _ (fun a _ => a) ref_part (ref_part_ok f64_cmp) X X n1 1 1 r); auto; [cbn; lia|cbn; lia|unfold workers; cbn; lia].
Qed.
(** squaring positive numbers keeps the order: two float data sets with the same ranks *)
Example C116_case :
  let X := Arr2 5 2 (fun i f => @nofnat f64 _ (i + f + 1)) in
  let X' := Arr2 5 2 (fun i f => @nofnat f64 _ ((i + f + 1) * (i + f + 1))) in
  forall r r',
    mp_dissim (fun a _ => a) ref_part X (Some X) n1 2 "mass" 1 1 r -> mp_dissim (fun a _ => a) ref_part X' (Some X') n1 2 "mass" 4 1 r' ->
    exists D D', r = Ok D /\ r' = Ok D' /\ eq2 D D'.
Proof.
  intros X X' r r' H H'.
  assert (T : forallb (fun f => forallb (fun i => negb (nisnan (at2 X i f)) && negb (nisnan (at2 X' i f)) &&
      forallb (fun j => Bool.eqb (nle (at2 X j f) (at2 X i f)) (nle (at2 X' j f) (at2 X' i f))) (seq 0 5)) (seq 0 5)) (seq 0 2) = true) by (vm_compute; reflexivity).
  assert (G : forall f i, f < 2 -> i < 5 -> nisnan (at2 X i f) = false /\ nisnan (at2 X' i f) = false /\ forall j, j < 5 -> nle (at2 X j f) (at2 X i f) = nle (at2 X' j f) (at2 X' i f)).
  { intros f i Hf Hi. rewrite forallb_forall in T. specialize (T f ltac:(apply in_seq; lia)). rewrite forallb_forall in T. specialize (T i ltac:(apply in_seq; lia)).
    apply andb_true_iff in T as [T1 T2]. apply andb_true_iff in T1 as [T0 T1]. apply negb_true_iff in T0, T1. split; [exact T0|]. split; [exact T1|].
    intros j Hj. rewrite forallb_forall in T2. specialize (T2 j ltac:(apply in_seq; lia)). apply Bool.eqb_prop. exact T2. }
  clear T.
  assert (W : workers 1 1) by (unfold workers; cbn; lia). assert (W' : workers 4 1) by (unfold workers; cbn; lia).
  pose proof (C116_mass_depends_on_order f64 _ _ f64_cmp (fun a _ => a) ref_part ref_part (ref_part_ok f64_cmp) (ref_part_ok f64_cmp) X X X' X' n1 2 1 1 4 1 r r') as C.
  pose proof (C115_mass_accepted f64 _ _ f64_cmp (fun a _ => a) ref_part (ref_part_ok f64_cmp) X X n1 2 1 1 r) as A.
  cbn [nrow ncol X X'] in A, C. destruct A as [[_ A] _]; auto; try lia; try (intros; apply (G f); assumption).
  destruct (A eq_refl) as (D & ->).
  assert (Q : match r' with Ok D' => eq2 D D' | Raise _ => False end).
  { apply C; auto; try lia. intros f Hf. split; [|split; [|split]]; intros; try (split; apply (G f); assumption); apply (G f); assumption. }
  destruct r' as [D'|e]; [|contradiction]. exists D, D'. auto.
Qed.
Example C118_case :
  let X := Arr2 4 1 (fun i _ => XFin (INR i)) in
  exists D, sample_distance (fun _ u v => nsub (u 0) (v 0)) X [0; 0; 1; 1]%Z (SInt 2) "a" (Ok (D, [3; 0])).
Proof.
  intros X. eexists. apply sd_ok; [reflexivity|reflexivity|]. constructor; cbn; [lia|reflexivity| |intros i [<-|[<-|[]]]; lia].
  repeat constructor; cbn; intuition lia.
Qed.

Print Assumptions C112_range_value.
Print Assumptions C112_mass_value.
Print Assumptions C112_default_Y.
Print Assumptions C113_bounds.
Print Assumptions C113_between.
Print Assumptions C113_symmetric.
Print Assumptions C113_self.
Print Assumptions C114_deterministic.
Print Assumptions C114_terminates.
Print Assumptions C115_default_bins_fail.
Print Assumptions C115_too_many_bins_fail.
Print Assumptions C115_mass_accepted.
Print Assumptions C115_mass_one_object_per_bin.
Print Assumptions C115_bin_names.
Print Assumptions C116_mass_depends_on_order.
Print Assumptions C116_range_affine.
Print Assumptions C117_depends_on_number_of_queries.
Print Assumptions C118_sample_distances.
Print Assumptions C118_strategies.
Print Assumptions C118_numpy_integer_sizes_fail.
