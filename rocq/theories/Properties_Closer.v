(** Property C195: moving two objects closer together. *)
From Coq Require Import String.
From Coq Require Import ZArith Reals Lra List Arith Lia Bool Permutation.
From Flocq Require Import Core BinarySingleNaN.
From Verif Require Import Py Num NumT Arr Sort S_Neighbors S_MP S_LS M_IO M_Hubness M_MPEmpiric M_LS M_SNN.
From Verif Require Import P_Neighbors P_F64 P_Hubness P_MPEmpiric P_MPEmpiric2 P_GK P_LS P_LS2 P_LS3.
From Verif Require Import Properties_Hubness Properties_MP Properties_LS Properties_CountAcc Properties_Remote Properties_Dup.
Import ListNotations.
Local Open Scope nat_scope.

(** ** Specification *)
(** the pair is {i, h} *)
Definition the_pair (i h a b : nat) : Prop := (a = i /\ b = h) \/ (a = h /\ b = i).
(** [D'] is [D], except that [i] and [h] are closer together (or as close as before) *)
Definition closer {V} {N : Num V} (D' D : arr2 V) (i h : nat) : Prop :=
  nrow D = ncol D /\ nrow D' = nrow D /\ ncol D' = nrow D /\ i < nrow D /\ h < nrow D /\ i <> h /\
  nle (at2 D' i h) (at2 D i h) = true /\ nle (at2 D' h i) (at2 D h i) = true /\
  forall a b, a < nrow D -> b < nrow D -> ~ the_pair i h a b -> at2 D' a b = at2 D a b.

Lemma nle_nlt_trans {V} {N : Num V} {toX} (CL : CmpLaws V N toX) (a b c : V) : nle a b = true -> nlt b c = true -> nlt a c = true.
Proof.
  rewrite (nle_lt_eq CL). intros H Q. apply orb_prop in H as [H|H]; [now apply (nlt_trans CL _ b)|]. now rewrite (nlt_neq_l CL _ _ _ H).
Qed.
Lemma nlt_nle_trans {V} {N : Num V} {toX} (CL : CmpLaws V N toX) (a b c : V) : nlt a b = true -> nle b c = true -> nlt a c = true.
Proof.
  rewrite (nle_lt_eq CL). intros Q H. apply orb_prop in H as [H|H]; [now apply (nlt_trans CL _ b)|]. now rewrite <- (nlt_neq_r CL _ _ _ H).
Qed.

(** ** Hubness: an object that is in the neighbour list of the other stays there *)
Theorem C195_hubness :
  forall (argpart argpart' : list f64 -> list nat -> list nat), argpart_ok argpart -> argpart_ok argpart' ->
  forall sparse sparse' (D D' : arr2 f64) (k : nat) se se' rps rps' i h,
    closer D' D i h -> 0 < k ->
    nisfin (at2 D' i h) = true -> nisfin (at2 D i h) = true ->
    (forall x, x < nrow D -> x <> i -> x <> h -> nisfin (at2 D i x) = true /\ neq (at2 D' i x) (at2 D' i h) = false) ->
    (forall a, a < nrow D -> Permutation (rps a) (seq 0 (ncol D))) ->
    (forall a, a < nrow D -> Permutation (rps' a) (seq 0 (ncol D))) ->
    exists o o', hubness_serial argpart sparse D (Z.of_nat k) "distance" se rps = Ok o /\
      hubness_serial argpart' sparse' D' (Z.of_nat k) "distance" se' rps' = Ok o' /\
      (In h (nth i (out_Dk o) []) -> In h (nth i (out_Dk o') [])).
Proof.
  intros argpart argpart' AP AP' sparse sparse' D D' k se se' rps rps' i h (Hsq & R' & C' & Hi & Hh & Hih & L1 & L2 & E) Hk F' F T Hrp Hrp'.
  destruct (C02_serial_neighbours_are_nearest argpart AP sparse D k "distance" se rps eq_refl) as (o & Ho & _ & _ & K); [lia|now left|assumption|].
  destruct (C02_serial_neighbours_are_nearest argpart' AP' sparse' D' k "distance" se' rps' eq_refl) as (o' & Ho' & _ & _ & K'); [lia|left; lia|intros a Ha; rewrite C', Hsq; apply Hrp'; lia|].
  exists o, o'. split; [exact Ho|]. split; [exact Ho'|]. intros Hin.
  specialize (K i Hi). specialize (K' i ltac:(lia)). rewrite C' in K'. rewrite <- Hsq in K. set (n := nrow D) in *. set (m := Nat.min k (n - 1)) in *.
  destruct K as [l1 l2 l3 l4 l5]. destruct K' as [m1 m2 m3 m4 m5]. set (l := nth i (out_Dk o) []) in *. set (l' := nth i (out_Dk o') []) in *.
  destruct (in_dec Nat.eq_dec h l') as [|Hn]; [assumption|]. exfalso.
  assert (U : forall (A : arr2 f64) x, nrow A = ncol A -> x <> i -> nisfin (at2 A i x) = true -> eff "distance" A i x = at2 A i x).
  { intros A x HA Hx Hf. unfold eff. rewrite usable_sq by exact HA. rewrite Hf. now rewrite (proj2 (Nat.eqb_neq x i)). }
  assert (Ui : forall (A : arr2 f64), nrow A = ncol A -> eff "distance" A i i = ninf).
  { intros A HA. unfold eff. rewrite usable_sq by exact HA. rewrite Nat.eqb_refl, andb_false_r. reflexivity. }
  (** everyone in the new list was strictly closer than h before *)
  assert (B : forall y, In y l' -> y <> h /\ nearer "distance" (eff "distance" D i y) (eff "distance" D i h) = true).
  { intros y Hy. assert (Hyh : y <> h) by congruence. split; [exact Hyh|]. pose proof (m3 y Hy) as Hyn. pose proof (m5 h y Hh Hn Hy) as Q.
    rewrite (U D' h) in Q by (auto; lia). rewrite (U D h) by auto. unfold nearer in *. change (is_sim "distance") with false in *. cbv iota in *.
    destruct (Nat.eq_dec y i) as [->|Hyi].
    - rewrite Ui in Q by lia. rewrite (fin_lt_inf f64_cmp) in Q by exact F'. discriminate.
    - destruct (T y Hyn Hyi Hyh) as (Ty & Tn). assert (Ey : at2 D' i y = at2 D i y) by (apply E; auto; unfold the_pair; intuition congruence).
      rewrite (U D' y) in Q by (rewrite ?Ey; auto; lia). rewrite (U D y) by auto. rewrite Ey in Q, Tn.
      apply (nlt_nle_trans f64_cmp _ (at2 D' i h)); [|exact L1].
      rewrite (cl_lt _ _ _ f64_cmp) in *. rewrite (cl_eq _ _ _ f64_cmp) in Tn. rewrite (cl_fin _ _ _ f64_cmp) in Ty, F'.
      destruct (f2x (at2 D i y)) as [| |u|]; try discriminate. destruct (f2x (at2 D' i h)) as [| |w|]; try discriminate.
      cbn in *. destruct (Req_EM_T u w); [discriminate|]. destruct (Rlt_dec w u); [discriminate|]. destruct (Rlt_dec u w); [reflexivity|lra]. }
  assert (Ex : exists y, In y l' /\ ~ In y l).
  { destruct (Forall_Exists_dec (fun y => In y l) (fun y => in_dec Nat.eq_dec y l) l') as [Fa|Ex].
    - exfalso. rewrite Forall_forall in Fa. assert (Q : length (h :: l') <= length l); [|cbn in Q; lia].
      apply NoDup_incl_length; [constructor; assumption|]. intros y [<-|Hy]; auto.
    - apply Exists_exists in Ex. exact Ex. }
  destruct Ex as (y & Hy & Hny). destruct (B y Hy) as (_ & Q). rewrite (l5 y h (m3 y Hy) Hny Hin) in Q. discriminate.
Qed.

(** ** Empiric Mutual Proximity: the pair does not move apart, nobody else moves closer *)
Theorem C195_mutual_proximity :
  forall (D D' : arr2 f64) i h, symmetric D -> symmetric D' -> closer D' D i h -> (Z.of_nat (nrow D) <= 2 ^ 50)%Z ->
  exists M M', mp_empiric_full D "distance" TNone = Ok M /\ mp_empiric_full D' "distance" TNone = Ok M' /\
    nle (at2 M' i h) (at2 M i h) = true /\
    (forall a b, a < nrow D -> b < nrow D -> a <> b -> ~ the_pair i h a b -> nle (at2 M a b) (at2 M' a b) = true) /\
    (forall a b, a < nrow D -> b < nrow D -> a <> b -> a <> i -> a <> h -> b <> i -> b <> h -> at2 M' a b = at2 M a b).
Proof.
  intros D D' i h (_ & Sy) (_ & Sy') (Hsq & R' & C' & Hi & Hh & Hih & L1 & L2 & E) Hn. set (n := nrow D) in *.
  destruct (C07_mp_distance_formula D ltac:(fold n; lia) Hsq) as (M & HM & _ & _ & _ & A). destruct (C07_mp_distance_formula D' ltac:(lia) ltac:(lia)) as (M' & HM' & _ & _ & _ & A').
  fold n in A. rewrite R' in A', Sy'. exists M, M'. split; [exact HM|]. split; [exact HM'|].
  assert (F : forall a b, a < n -> b < n -> a <> b -> at2 M a b = float_share false n (farther_from_both D n a b (at2 D a b)) /\
      at2 M' a b = float_share false n (farther_from_both D' n a b (at2 D' a b))).
  { intros a b Ha Hb Hab. destruct (Nat.lt_ge_cases a b) as [C|C].
    - rewrite (proj1 (A a b C Hb)), (proj1 (A' a b C Hb)). rewrite (Sy b a), (Sy' b a) by assumption. split; reflexivity.
    - destruct (A b a ltac:(lia) Ha) as (A1 & A2). destruct (A' b a ltac:(lia) Ha) as (A1' & A2'). rewrite A2, A1, A2', A1', (farther_sym D), (farther_sym D'). split; reflexivity. }
  assert (Le : forall a b, a < n -> b < n -> nle (at2 D' a b) (at2 D a b) = true \/ at2 D' a b = at2 D a b).
  { intros a b Ha Hb. destruct (Nat.eq_dec a i) as [->|N1]; [destruct (Nat.eq_dec b h) as [->|N2]; [now left|]|destruct (Nat.eq_dec a h) as [->|N2]; [destruct (Nat.eq_dec b i) as [->|N3]; [now left|]|]];
      right; apply E; auto; unfold the_pair; intuition congruence. }
  assert (Ord : forall c d, c <= n -> d <= n -> d <= c -> nle (float_share false n c) (float_share false n d) = true) by (intros c d Hc Hd Hcd; apply (share_order false n); lia).
  split; [|split].
  - destruct (F i h Hi Hh Hih) as (-> & ->). apply Ord; try apply count_if_le. unfold farther_from_both. apply count_if_mono. intros x Hx H.
    apply andb_prop in H as (H1 & H2). rewrite H1. apply andb_prop in H1 as (N1 & N2). apply negb_true_iff, Nat.eqb_neq in N1, N2. apply andb_prop in H2 as (Q1 & Q2).
    rewrite (E i x), (E h x) by (auto; unfold the_pair; intuition congruence). now rewrite (nle_nlt_trans f64_cmp _ _ _ L1 Q1), (nle_nlt_trans f64_cmp _ _ _ L1 Q2).
  - intros a b Ha Hb Hab Np. destruct (F a b Ha Hb Hab) as (-> & ->). apply Ord; try apply count_if_le. unfold farther_from_both. rewrite (E a b) by assumption. apply count_if_mono. intros x Hx H.
    apply andb_prop in H as (H1 & H2). rewrite H1. apply andb_prop in H2 as (Q1 & Q2). cbn [andb].
    assert (G : forall c, c < n -> nlt (at2 D a b) (at2 D' c x) = true -> nlt (at2 D a b) (at2 D c x) = true).
    { intros c Hc Q. destruct (Le c x Hc Hx) as [Q'|Q']; [now apply (nlt_nle_trans f64_cmp _ _ _ Q)|now rewrite <- Q']. }
    now rewrite !G.
  - intros a b Ha Hb Hab N1 N2 N3 N4. destruct (F a b Ha Hb Hab) as (-> & ->). rewrite (E a b) by (auto; unfold the_pair; intuition congruence). f_equal.
    unfold farther_from_both. apply count_if_ext. intros x Hx. now rewrite (E a x), (E b x) by (auto; unfold the_pair; intuition congruence).
Qed.

(** ** Local scaling: the same, with exact arithmetic *)
Lemma xlt_R (a b : R) : nlt (XFin a) (XFin b) = true <-> (a < b)%R.
Proof. change (nlt (XFin a) (XFin b)) with (if Rlt_dec a b then true else false). destruct (Rlt_dec a b); split; auto; discriminate. Qed.
Lemma xle_R (a b : R) : nle (XFin a) (XFin b) = true <-> (a <= b)%R.
Proof. change (nle (XFin a) (XFin b)) with (if Rle_dec a b then true else false). destruct (Rle_dec a b); split; auto; discriminate. Qed.
(** the k-th smallest value when one value gets smaller: it does not grow, and it
    shrinks only between the old and the new value *)
Lemma kth_moves (f f' : nat -> R) js h k (r r' : R) :
  (forall j, In j js -> j <> h -> f' j = f j) -> (f' h <= f h)%R ->
  kth_smallest (map (fun j => XFin (f j)) js) k (XFin r) -> kth_smallest (map (fun j => XFin (f' j)) js) k (XFin r') ->
  (r' <= r)%R /\ (r' = r \/ (f' h <= r' /\ r <= f h)%R).
Proof.
  intros E L (_ & A1 & A2) (_ & B1 & B2). rewrite filter_map_len in A1, A2, B1, B2.
  assert (Le : forall j, In j js -> (f' j <= f j)%R) by (intros j Hj; destruct (Nat.eq_dec j h) as [->|Hne]; [exact L|rewrite E by assumption; lra]).
  assert (R1 : (r' <= r)%R).
  { destruct (Rle_lt_dec r' r) as [|C]; [assumption|]. exfalso.
    assert (Q : length (filter (fun j => nle (XFin (f j)) (XFin r)) js) <= length (filter (fun j => nlt (XFin (f' j)) (XFin r')) js)); [|lia].
    apply filter_length_mono. intros j Hj. rewrite xle_R, xlt_R. specialize (Le j Hj). lra. }
  split; [exact R1|]. destruct (Req_dec r' r) as [|Hne]; [now left|right].
  assert (Cnt : ~ length (filter (fun j => nle (XFin (f' j)) (XFin r')) js) <= length (filter (fun j => nlt (XFin (f j)) (XFin r)) js)) by lia.
  split.
  - destruct (Rle_lt_dec (f' h) r') as [|C]; [assumption|]. exfalso. apply Cnt. apply filter_length_mono. intros j Hj. rewrite xle_R, xlt_R. intros Q.
    destruct (Nat.eq_dec j h) as [->|Hj']; [lra|]. rewrite E in Q by assumption. lra.
  - destruct (Rle_lt_dec r (f h)) as [|C]; [assumption|]. exfalso. apply Cnt. apply filter_length_mono. intros j Hj. rewrite xle_R, xlt_R. intros Q.
    destruct (Nat.eq_dec j h) as [->|Hj']; [lra|]. rewrite E in Q by assumption. lra.
Qed.

Theorem C195_local_scaling :
  forall part part' (D D' : arr2 xr) (k : nat) cpu cpu' n_jobs n_jobs' i h res res',
    part_ok part -> part_ok part' -> symmetric D -> symmetric D' -> closer D' D i h ->
    (forall a b, a < nrow D -> b < nrow D -> a <> b -> nisfin (at2 D a b) = true /\ nisfin (at2 D' a b) = true /\ nlt (XFin 0) (at2 D' a b) = true) ->
    0 < k < nrow D -> (1 <= workers cpu n_jobs)%Z -> (1 <= workers cpu' n_jobs')%Z ->
    local_scaling xexp part D (Z.of_nat k) "distance" None cpu n_jobs res ->
    local_scaling xexp part' D' (Z.of_nat k) "distance" None cpu' n_jobs' res' ->
    exists L L', res = Ok L /\ res' = Ok L' /\
    nle (at2 L' i h) (at2 L i h) = true /\
    (forall a b, a < nrow D -> b < nrow D -> a <> b -> ~ the_pair i h a b -> nle (at2 L a b) (at2 L' a b) = true) /\
    (forall a b, a < nrow D -> b < nrow D -> a <> i -> a <> h -> b <> i -> b <> h -> at2 L' a b = at2 L a b).
Proof.
  intros part part' D D' k cpu cpu' nj nj' i h res res' PO PO' (_ & Sy) (_ & Sy') (Hsq & R' & C' & Hi & Hh & Hih & L1 & L2 & E) Hf Hk Hw Hw' H H'. set (n := nrow D) in *.
  destruct (C27_ls_formula part D n k None cpu nj res PO eq_refl (eq_sym Hsq)) as (L & r & -> & _ & _ & K & Dg & SL & F & _); [intros; now apply Hf|cbn [training]; rewrite seq_length; lia|exact Hw|exact H|].
  destruct (C27_ls_formula part' D' n k None cpu' nj' res' PO' R' C') as (L' & r' & -> & _ & _ & K' & Dg' & SL' & F' & _); [intros; now apply Hf|cbn [training]; rewrite seq_length; lia|exact Hw'|exact H'|].
  exists L, L'. split; [reflexivity|]. split; [reflexivity|]. cbn [training] in K, K'. rewrite R' in Sy'.
  set (x := real_at D) in *. set (x' := real_at D') in *.
  assert (X : forall a b, a < n -> b < n -> a <> b -> at2 D a b = XFin (x a b) /\ at2 D' a b = XFin (x' a b) /\ (0 < x' a b)%R).
  { intros a b Ha Hb Hab. destruct (Hf a b Ha Hb Hab) as (F1 & F2 & F3). unfold x, x', real_at. destruct (at2 D a b); try discriminate. destruct (at2 D' a b); try discriminate. apply xlt_R in F3. auto. }
  assert (Le : forall a b, a < n -> b < n -> a <> b -> (x' a b <= x a b)%R /\ (~ the_pair i h a b -> x' a b = x a b)).
  { intros a b Ha Hb Hab. destruct (X a b Ha Hb Hab) as (X1 & X2 & _). split.
    - destruct (Nat.eq_dec a i) as [->|N1]; [destruct (Nat.eq_dec b h) as [->|N2]|destruct (Nat.eq_dec a h) as [->|N2]; [destruct (Nat.eq_dec b i) as [->|N3]|]].
      + rewrite X1, X2 in L1. now apply xle_R.
      + right. unfold x, x', real_at. rewrite E; auto. unfold the_pair. intuition congruence.
      + rewrite X1, X2 in L2. now apply xle_R.
      + right. unfold x, x', real_at. rewrite E; auto. unfold the_pair. intuition congruence.
      + right. unfold x, x', real_at. rewrite E; auto. unfold the_pair. intuition congruence.
    - intros Np. unfold x, x', real_at. now rewrite E. }
  assert (Oth : forall a, a < n -> S_LS.others D (seq 0 n) a = map (fun j => XFin (x a j)) (filter (fun j => negb (j =? a)) (seq 0 n)) /\
                           S_LS.others D' (seq 0 n) a = map (fun j => XFin (x' a j)) (filter (fun j => negb (j =? a)) (seq 0 n))).
  { intros a Ha. unfold S_LS.others. split; apply map_ext_in; intros j Hj; apply filter_In in Hj as (Hj & Hne); apply in_seq in Hj; apply negb_true_iff, Nat.eqb_neq in Hne; apply X; auto; lia. }
  assert (Pr : forall a, a < n -> (0 < r' a)%R).
  { intros a Ha. destruct (K' a Ha) as (Hin & _). rewrite (proj2 (Oth a Ha)) in Hin. apply in_map_iff in Hin as (j & Ej & Hj). injection Ej as <-.
    apply filter_In in Hj as (Hj & Hne). apply in_seq in Hj. apply negb_true_iff, Nat.eqb_neq in Hne. apply X; auto; lia. }
  assert (Mv : forall a c, a < n -> the_pair i h a c -> (r' a <= r a)%R /\ (r' a = r a \/ (x' a c <= r' a /\ r a <= x a c)%R)).
  { intros a c Ha Hp. assert (Hac : a <> c) by (unfold the_pair in Hp; intuition congruence). assert (Hc : c < n) by (unfold the_pair in Hp; intuition congruence).
    pose proof (K a Ha) as Ka. pose proof (K' a Ha) as Ka'. rewrite (proj1 (Oth a Ha)) in Ka. rewrite (proj2 (Oth a Ha)) in Ka'.
    apply (kth_moves (x a) (x' a) _ c k _ _) with (3 := Ka) (4 := Ka'); [|apply Le; auto].
    intros j Hj Hjc. apply filter_In in Hj as (Hj & Hne). apply in_seq in Hj. apply negb_true_iff, Nat.eqb_neq in Hne. apply Le; auto; [lia|]. unfold the_pair in *. intuition congruence. }
  assert (St : forall a, a < n -> a <> i -> a <> h -> r' a = r a).
  { intros a Ha Ni Nh. enough (Q : XFin (r' a) = XFin (r a)) by (now injection Q). apply (kth_smallest_unique (S_LS.others D' (seq 0 n) a) k); [now apply K'|].
    replace (S_LS.others D' (seq 0 n) a) with (S_LS.others D (seq 0 n) a); [now apply K|]. unfold S_LS.others. apply map_ext_in. intros j Hj. apply filter_In in Hj as (Hj & _). apply in_seq in Hj.
    symmetry. apply E; auto; [lia|]. unfold the_pair. intuition congruence. }
  assert (Rle : forall a, a < n -> (r' a <= r a)%R).
  { intros a Ha. destruct (Nat.eq_dec a i) as [->|Ni]; [apply (Mv i h Ha); now left|]. destruct (Nat.eq_dec a h) as [->|Nh]; [apply (Mv h i Ha); now right|]. rewrite St by assumption. lra. }
  assert (Val : forall a b, a < n -> b < n -> a <> b -> at2 L a b = XFin (1 - exp (- (x a b * x a b) / (r a * r b))) /\ at2 L' a b = XFin (1 - exp (- (x' a b * x' a b) / (r' a * r' b)))).
  { assert (G : forall a b, a < b -> b < n -> at2 L a b = XFin (1 - exp (- (x a b * x a b) / (r a * r b))) /\ at2 L' a b = XFin (1 - exp (- (x' a b * x' a b) / (r' a * r' b)))).
    { intros a b Hab Hb. pose proof (Pr a ltac:(lia)). pose proof (Pr b Hb). pose proof (Rle a ltac:(lia)). pose proof (Rle b Hb). split; [apply F|apply F']; auto; nra. }
    intros a b Ha Hb Hab. destruct (Nat.lt_ge_cases a b) as [C|C]; [now apply G|]. rewrite (SL a b), (SL' a b) by assumption. destruct (G b a ltac:(lia) Ha) as (-> & ->).
    assert (S1 : x b a = x a b) by (unfold x, real_at; now rewrite (Sy b a) by assumption). assert (S2 : x' b a = x' a b) by (unfold x', real_at; now rewrite (Sy' b a) by assumption).
    rewrite S1, S2, (Rmult_comm (r b)), (Rmult_comm (r' b)). split; reflexivity. }
  assert (Mono : forall u w s t : R, (0 < s)%R -> (0 < t)%R -> (u * t <= w * s)%R -> (1 - exp (- u / s) <= 1 - exp (- w / t))%R).
  { intros u w s t Hs Ht Q. assert (Q1 : (- w / t <= - u / s)%R).
    { apply (Rmult_le_reg_r (s * t)); [nra|]. replace (- w / t * (s * t))%R with (- (w * s))%R by (field; lra). replace (- u / s * (s * t))%R with (- (u * t))%R by (field; lra). lra. }
    destruct Q1 as [Q1|Q1]; [apply exp_increasing in Q1; lra|rewrite Q1; lra]. }
  split; [|split].
  - destruct (Val i h Hi Hh Hih) as (-> & ->). apply xle_R. pose proof (Pr i Hi) as P1. pose proof (Pr h Hh) as P2. pose proof (Rle i Hi) as Q1. pose proof (Rle h Hh) as Q2.
    destruct (X i h Hi Hh Hih) as (_ & _ & Px). pose proof (proj1 (Le i h Hi Hh Hih)) as Lx.
    destruct (Mv i h Hi ltac:(now left)) as (_ & M1). destruct (Mv h i Hh ltac:(now right)) as (_ & M2).
    assert (S1 : x h i = x i h) by (unfold x, real_at; now rewrite (Sy h i) by assumption). assert (S2 : x' h i = x' i h) by (unfold x', real_at; now rewrite (Sy' h i) by assumption). rewrite S1, S2 in M2.
    assert (T1 : (x' i h * r i <= x i h * r' i)%R) by (destruct M1 as [->|(M1 & M1')]; nra).
    assert (T2 : (x' i h * r h <= x i h * r' h)%R) by (destruct M2 as [->|(M2 & M2')]; nra).
    apply Mono; [nra|nra|]. replace (x' i h * x' i h * (r i * r h))%R with ((x' i h * r i) * (x' i h * r h))%R by ring. replace (x i h * x i h * (r' i * r' h))%R with ((x i h * r' i) * (x i h * r' h))%R by ring.
    apply Rmult_le_compat; nra.
  - intros a b Ha Hb Hab Np. destruct (Val a b Ha Hb Hab) as (-> & ->). apply xle_R. rewrite (proj2 (Le a b Ha Hb Hab) Np).
    pose proof (Pr a Ha) as P1. pose proof (Pr b Hb) as P2. pose proof (Rle a Ha) as Q1. pose proof (Rle b Hb) as Q2. apply Mono; [nra|nra|].
    assert (G : (r' a * r' b <= r a * r b)%R) by nra. pose proof (Rle_0_sqr (x a b)) as S0. unfold Rsqr in S0. nra.
  - intros a b Ha Hb N1 N2 N3 N4. destruct (Nat.eq_dec a b) as [->|Hab]; [now rewrite Dg, Dg'|]. destruct (Val a b Ha Hb Hab) as (-> & ->).
    rewrite (proj2 (Le a b Ha Hb Hab)) by (unfold the_pair; intuition congruence). now rewrite !St.
Qed.

(** ** The hypotheses can be met: objects at 0, 1, 3 and 7; the distance 3 becomes 2 *)
Definition line4 : arr2 f64 := line_at [0; 1; 3; 7]%Z.
Definition pull {V} (D : arr2 V) (i h : nat) (d : V) : arr2 V :=
  Arr2 (nrow D) (ncol D) (fun a b => if ((a =? i) && (b =? h) || (a =? h) && (b =? i))%bool then d else at2 D a b).
Example C195_case : let D' := pull line4 0 2 (nofZ 2) in
  closer D' line4 0 2 /\ symmetric line4 /\ symmetric D' /\ nisfin (at2 D' 0 2) = true /\ nisfin (at2 line4 0 2) = true /\
  (forall x, x < 4 -> x <> 0 -> x <> 2 -> nisfin (at2 line4 0 x) = true /\ neq (at2 D' 0 x) (at2 D' 0 2) = false).
Proof.
  cbv zeta. assert (S : symmetric line4).
  { split; [reflexivity|]. change (nrow line4) with 4. intros i j Hi Hj. unfold line4, line_at. cbn [at2]. f_equal. lia. }
  split; [|split; [exact S|split; [|split; [|split]]]].
  - split; [reflexivity|]. split; [reflexivity|]. split; [reflexivity|]. split; [cbn; lia|]. split; [cbn; lia|]. split; [lia|]. split; [vm_compute; reflexivity|]. split; [vm_compute; reflexivity|].
    intros a b Ha Hb Np. unfold pull. cbn [at2]. unfold the_pair in Np. destruct (Nat.eqb_spec a 0), (Nat.eqb_spec b 2), (Nat.eqb_spec a 2), (Nat.eqb_spec b 0); cbn [andb orb]; try reflexivity; exfalso; apply Np; lia.
  - split; [reflexivity|]. change (nrow (pull line4 0 2 (nofZ 2))) with 4. intros i j Hi Hj. unfold pull. cbn [at2]. rewrite (proj2 S i j) by assumption.
    destruct (i =? 0), (j =? 2), (i =? 2), (j =? 0); reflexivity.
  - vm_compute. reflexivity.
  - vm_compute. reflexivity.
  - intros x Hx H0 H2. destruct x as [|[|[|[|x]]]]; try lia; split; vm_compute; reflexivity.
Qed.
Definition line4x : arr2 xr := Arr2 4 4 (fun i j => XFin (IZR (Z.abs (nth i [0; 1; 3; 7]%Z 0%Z - nth j [0; 1; 3; 7]%Z 0%Z)))).
Example C195_case_exact : let D' := pull line4x 0 2 (XFin 2) in
  closer D' line4x 0 2 /\ symmetric line4x /\ symmetric D' /\
  (forall a b, a < 4 -> b < 4 -> a <> b -> nisfin (at2 line4x a b) = true /\ nisfin (at2 D' a b) = true /\ nlt (XFin 0) (at2 D' a b) = true).
Proof.
  cbv zeta. assert (S : symmetric line4x).
  { split; [reflexivity|]. change (nrow line4x) with 4. intros i j Hi Hj. unfold line4x. cbn [at2]. do 2 f_equal. lia. }
  split; [|split; [exact S|split]].
  - split; [reflexivity|]. split; [reflexivity|]. split; [reflexivity|]. split; [cbn; lia|]. split; [cbn; lia|]. split; [lia|]. split; [apply xle_R; cbn; lra|]. split; [apply xle_R; cbn; lra|].
    intros a b Ha Hb Np. unfold pull. cbn [at2]. unfold the_pair in Np. destruct (Nat.eqb_spec a 0), (Nat.eqb_spec b 2), (Nat.eqb_spec a 2), (Nat.eqb_spec b 0); cbn [andb orb]; try reflexivity; exfalso; apply Np; lia.
  - split; [reflexivity|]. change (nrow (pull line4x 0 2 (XFin 2))) with 4. intros i j Hi Hj. unfold pull. cbn [at2]. rewrite (proj2 S i j) by assumption.
    destruct (i =? 0), (j =? 2), (i =? 2), (j =? 0); reflexivity.
  - intros a b Ha Hb Hab. split; [reflexivity|]. unfold pull. cbn [at2]. destruct (_ || _); (split; [reflexivity|]); apply xlt_R; [lra|]. apply IZR_lt.
    destruct a as [|[|[|[|a]]]], b as [|[|[|[|b]]]]; try lia; cbn; lia.
Qed.

(** ** Shared neighbours: moving two objects closer together can take them from the smallest to
    the largest distance *)
Theorem C195_shared_neighbours_part :
  exists D D' M M', closer D' D 0 2 /\ symmetric D /\ symmetric D' /\
    snn_serial ref_argpart D 1 "distance" = Ok M /\ snn_serial ref_argpart D' 1 "distance" = Ok M' /\
    nlt (at2 D' 0 2) (at2 D 0 2) = true /\ neq (at2 M 0 2) (n0 : f64) = true /\ neq (at2 M' 0 2) n1 = true.
Proof.
  set (D := line_at [0; 3; 5; 20]%Z). set (D' := pull D 0 2 (nofZ 1)).
  assert (B : match snn_serial ref_argpart D 1 "distance", snn_serial ref_argpart D' 1 "distance" with
    | Ok M, Ok M' => neq (at2 M 0 2) (n0 : f64) && neq (at2 M' 0 2) n1 | _, _ => false end = true) by (vm_compute; reflexivity).
  assert (S : symmetric D). { split; [reflexivity|]. change (nrow D) with 4. intros i j Hi Hj. unfold D, line_at. cbn [at2]. f_equal. lia. }
  destruct (snn_serial ref_argpart D 1 "distance") as [M|] eqn:E; [|discriminate]. destruct (snn_serial ref_argpart D' 1 "distance") as [M'|] eqn:E'; [|discriminate].
  apply andb_prop in B as (B1 & B2). exists D, D', M, M'. split; [|split; [exact S|split; [|split; [exact E|split; [exact E'|split; [vm_compute; reflexivity|now split]]]]]].
  - split; [reflexivity|]. split; [reflexivity|]. split; [reflexivity|]. split; [cbn; lia|]. split; [cbn; lia|]. split; [lia|]. split; [vm_compute; reflexivity|]. split; [vm_compute; reflexivity|].
    intros a b Ha Hb Np. unfold D', pull. cbn [at2]. unfold the_pair in Np. destruct (Nat.eqb_spec a 0), (Nat.eqb_spec b 2), (Nat.eqb_spec a 2), (Nat.eqb_spec b 0); cbn [andb orb]; try reflexivity; exfalso; apply Np; lia.
  - split; [reflexivity|]. change (nrow D') with 4. intros i j Hi Hj. unfold D', pull. cbn [at2]. rewrite (proj2 S i j) by assumption.
    destruct (i =? 0), (j =? 2), (i =? 2), (j =? 0); reflexivity.
Qed.

Print Assumptions C195_hubness.
Print Assumptions C195_mutual_proximity.
Print Assumptions C195_local_scaling.
Print Assumptions C195_shared_neighbours_part.
