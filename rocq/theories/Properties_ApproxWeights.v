(** Property C153: weighted votes, several outputs, and the influence of the
    other queries of a call of predict. *)
From Coq Require Import ZArith List Arith Lia Bool Permutation Reals Lra.
From Verif Require Import Py Num NumT Arr Sort S_ApproxPredict M_Approx M_ApproxPredict M_ApproxWeights S_ApproxWeights.
From Verif Require Import P_Neighbors P_LS P_Approx P_ApproxANN P_ApproxPredict P_ApproxWeights.
Import ListNotations.
Local Open Scope nat_scope.

Lemma map_nth_seq0 (l : list nat) : map (fun k => nth k l 0) (seq 0 (length l)) = l.
Proof.
  apply (nth_ext _ _ 0 0); rewrite map_length, seq_length; [reflexivity|]. intros k Hk.
  rewrite (nth_indep _ 0 (nth 0 l 0)) by (now rewrite map_length, seq_length). rewrite (map_nth (fun k => nth k l 0)), seq_nth by exact Hk. reflexivity.
Qed.

Lemma nearest_perm f n K nb nb' : Permutation nb nb' -> nearest_positions f n K nb -> nearest_positions f n K nb'.
Proof.
  intros P (A & B & C & D). repeat split.
  - rewrite <- A. symmetry. now apply Permutation_length.
  - now apply (Permutation_NoDup P).
  - intros p Hp. apply C. now apply (Permutation_in _ (Permutation_sym P)).
  - intros p q Hp Hq Hn. apply D; auto; [now apply (Permutation_in _ (Permutation_sym P))|]. intros H. apply Hn. now apply (Permutation_in _ P).
Qed.

Section Run.
  Variable argpart : list xr -> list nat -> list nat.
  Variable argsort : list xr -> list nat.
  Hypothesis AP : argpart_ok argpart.
  Hypothesis AS : argsort_ok argsort.

  Lemma row_run_w w (g : nat -> R) n K labels : 1 <= K -> length labels = n -> (forall p, p < n -> (0 <= g p)%R) ->
    let row := map (fun p => XFin (g p)) (seq 0 n) in
    (n < K -> knn_row_w xsum argpart argsort w K row labels = Raise ValueError) /\
    (K <= n -> exists c nb, knn_row_w xsum argpart argsort w K row labels = Ok c /\ nearest_positions g n K nb /\
       elected_by_weight (weight w g nb) (fun p => nth p labels 0%Z) nb c).
  Proof.
    intros HK HL Hg row. unfold knn_row_w.
    assert (Fi : existsb (fun v => negb (nisfin v)) row = false).
    { destruct (existsb _ _) eqn:Ex; [|reflexivity]. apply existsb_exists in Ex as (x & Ix & Fx). apply in_map_iff in Ix as (l & <- & _). discriminate. }
    assert (Lr : length row = n) by (unfold row; now rewrite map_length, seq_length).
    rewrite Fi, Lr. replace (K =? 0) with false by (symmetry; apply Nat.eqb_neq; lia). cbn [orb]. split.
    - intros H. destruct (Nat.ltb_spec n K); [reflexivity|lia].
    - intros H. destruct (Nat.ltb_spec n K); [lia|]. cbn [guard bind].
      set (nb0 := firstn K (argpart row [K - 1])).
      assert (NP0 : nearest_positions g n K nb0).
      { apply argpart_nearest; [lia|]. apply AP. intros z [<-|[]]. fold row. lia. }
      set (nb := take 0 nb0 (argsort (map (vat row) nb0))).
      assert (P : Permutation nb0 nb).
      { destruct (AS (map (vat row) nb0)) as (P & _). rewrite map_length in P. unfold nb, take.
        rewrite (Permutation_map (fun k => nth k nb0 0) P). now rewrite map_nth_seq0. }
      assert (NP := nearest_perm _ _ _ _ _ P NP0). destruct NP as (Ln & ND & Bd & O).
      assert (Hn : nb <> []) by (intros E; rewrite E in Ln; cbn in Ln; lia).
      assert (Dn : forall q, In q nb -> (0 <= g q)%R) by (intros q Hq; apply Hg, Bd, Hq).
      eexists. exists nb. split; [reflexivity|]. split; [repeat split; auto|]. destruct w.
      + apply elected_one, mode_elected. intros E. apply map_eq_nil in E. contradiction.
      + replace (map (vat row) nb) with (map (fun p => XFin (g p)) nb).
        2:{ apply map_ext_in. intros p Hp. unfold vat, row. symmetry. rewrite (nth_indep _ nnan (XFin (g 0))) by (rewrite map_length, seq_length; auto).
            rewrite (map_nth (fun p => XFin (g p))), seq_nth by auto. reflexivity. }
        rewrite inv_weights_xr by exact Dn. apply weighted_mode_elected; [intros; now apply weight_nonneg|now apply weight_pos].
  Qed.

  (** both kinds of candidates *)
  Lemma predict_run_w w K (D : arr2 xr) (f : nat -> list Z -> list Z) ys : 1 <= K -> 0 < nrow D -> 0 < ncol D ->
    (forall i y, i < nrow D -> In y ys -> length (f i y) = ncol D) ->
    let r := bind (finite_dists D) (fun F => mapM (fun i => mapM (fun y => knn_row_w xsum argpart argsort w K (rowl F i) (f i y)) ys) (seq 0 (nrow F))) in
    (ncol D < K -> ys <> [] -> r = Raise ValueError) /\
    (K <= ncol D -> exists pred, r = Ok pred /\ weighted_rule w K (fun o i p => nth p (f i (nth o ys [])) 0%Z) (length ys) D pred).
  Proof.
    intros HK Hr Hc HL. destruct (finite_dists_shift D Hr Hc) as (F & top & s & E & A & B & T & S & H). cbv zeta. rewrite E. cbn [bind]. rewrite A.
    assert (Row : forall i, i < nrow D -> rowl F i = map (fun p => XFin (effective top (at2 D i p) + s)) (seq 0 (ncol D))).
    { intros i Hi. unfold rowl. rewrite B. apply map_ext_in. intros j Hj. apply in_seq in Hj. apply H; [exact Hi|lia]. }
    assert (Sh : forall i p, i < nrow D -> p < ncol D -> (0 <= effective top (at2 D i p) + s)%R).
    { destruct S as (a & b & Ha & Hb & M & ->). intros i p Hi Hp. specialize (M i p Hi Hp).
      pose proof (Rmax_r 0 (- effective top (at2 D a b))). lra. }
    split.
    - intros C Hy. destruct ys as [|y ys]; [congruence|]. destruct (nrow D) as [|n] eqn:En; [lia|]. cbn [seq mapM]. rewrite Row by lia.
      destruct (row_run_w w (fun p => effective top (at2 D 0 p) + s)%R (ncol D) K (f 0 y) HK) as (R1 & _); [apply HL; [lia|now left]|intros; apply Sh; lia|].
      now rewrite (R1 C).
    - intros C.
      assert (G : forall i y, i < nrow D -> In y ys -> exists c nb, knn_row_w xsum argpart argsort w K (rowl F i) (f i y) = Ok c /\
        nearest_positions (fun p => effective top (at2 D i p)) (ncol D) K nb /\
        elected_by_weight (weight w (fun p => effective top (at2 D i p) + s)%R nb) (fun p => nth p (f i y) 0%Z) nb c).
      { intros i y Hi Hy. rewrite Row by exact Hi.
        destruct (row_run_w w (fun p => effective top (at2 D i p) + s)%R (ncol D) K (f i y) HK) as (_ & R2); [now apply HL|intros; now apply Sh|].
        destruct (R2 C) as (c & nb & Ec & NP & El). exists c, nb. split; [exact Ec|]. split; [exact (nearest_shift _ _ _ _ _ NP)|exact El]. }
      assert (M : exists pred, mapM (fun i => mapM (fun y => knn_row_w xsum argpart argsort w K (rowl F i) (f i y)) ys) (seq 0 (nrow D)) = Ok pred).
      { apply mapM_ok_iff. intros i Hi. apply in_seq in Hi. apply mapM_ok_iff. intros y Hy. destruct (G i y ltac:(lia) Hy) as (c & _ & Ec & _). eauto. }
      destruct M as (pred & M). exists pred. split; [exact M|].
      destruct (mapM_ok_nth _ _ _ [] M) as (L & Hn). rewrite seq_length in L, Hn. split; [exact L|]. exists top, s. split; [exact T|]. split; [exact S|].
      intros i Hi. specialize (Hn i 0 Hi). rewrite seq_nth in Hn by exact Hi. cbn [Nat.add] in Hn.
      destruct (mapM_ok_nth _ _ _ 0%Z Hn) as (L2 & Ho). split; [exact L2|]. intros o Hoo. specialize (Ho o [] Hoo).
      destruct (G i (nth o ys []) Hi (nth_In _ _ Hoo)) as (c & nb & Ec & NP & El). exists nb. split; [exact NP|]. rewrite Ec in Ho. injection Ho as <-. exact El.
  Qed.

  (** ** (1) fixed vantage points: the knn__n_neighbors nearest vote *)
  Theorem C153_fixed : forall w kw (D : arr2 xr) ys, let K := match kw with Some k => k | None => 5 end in
    1 <= K -> 0 < nrow D -> 0 < ncol D -> (forall y, In y ys -> length y = ncol D) ->
    (ncol D < K -> ys <> [] -> predict_fixed_w xsum argpart argsort w kw D ys = Raise ValueError) /\
    (K <= ncol D -> exists pred, predict_fixed_w xsum argpart argsort w kw D ys = Ok pred /\
       weighted_rule w K (fun o _ p => nth p (nth o ys []) 0%Z) (length ys) D pred).
  Proof. intros w kw D ys K HK Hr Hc HL. apply (predict_run_w w K D (fun _ y => y) ys); auto. Qed.

  (** ** (2) candidates of an index: n_neighbors of them vote *)
  Theorem C153_index : forall w K (D : arr2 xr) ind ys,
    1 <= K -> 0 < nrow D -> 0 < ncol D -> (forall i, i < nrow D -> length (ind i) = ncol D) ->
    (ncol D < K -> ys <> [] -> predict_index_w xsum argpart argsort w K D ind ys = Raise ValueError) /\
    (K <= ncol D -> exists pred, predict_index_w xsum argpart argsort w K D ind ys = Ok pred /\
       weighted_rule w K (fun o i p => nth p (map (fun a => nth a (nth o ys []) 0%Z) (ind i)) 0%Z) (length ys) D pred).
  Proof.
    intros w K D ind ys HK Hr Hc HL. apply (predict_run_w w K D (fun i y => map (fun a => nth a y 0%Z) (ind i)) ys); auto.
    intros i y Hi _. rewrite map_length. auto.
  Qed.
End Run.

(** the shift is zero if no distance is negative *)
Lemma shift_zero (D : arr2 xr) top s : (forall i j, i < nrow D -> j < ncol D -> exists r, at2 D i j = XFin r /\ (0 <= r)%R) ->
  shift_of D top s -> s = 0%R.
Proof.
  intros H (i & j & Hi & Hj & _ & ->). destruct (H i j Hi Hj) as (r & -> & Hr). cbn. apply Rmax_left. lra.
Qed.

Definition all_finite (D : arr2 xr) : Prop := forall i j, i < nrow D -> j < ncol D -> exists r, at2 D i j = XFin r.
Definition no_negative (D : arr2 xr) : Prop := forall i j, i < nrow D -> j < ncol D -> exists r, at2 D i j = XFin r /\ (0 <= r)%R.
Definition no_ties (D : arr2 xr) (i : nat) : Prop := forall p q, p < ncol D -> q < ncol D -> p <> q -> at2 D i p <> at2 D i q.

Lemma rule_same_row w K lab lab' outs (D D' : arr2 xr) pred pred' i i' :
  all_finite D -> all_finite D' -> w = WUniform \/ (no_negative D /\ no_negative D') -> no_ties D i ->
  ncol D = ncol D' -> i < nrow D -> i' < nrow D' -> (forall j, j < ncol D -> at2 D i j = at2 D' i' j) ->
  (forall o p, p < ncol D -> lab o i p = lab' o i' p) ->
  weighted_rule w K lab outs D pred -> weighted_rule w K lab' outs D' pred' -> nth i pred [] = nth i' pred' [].
Proof.
  intros F F' Hw NT Hc Hi Hi' Hrow Hlab (L & t & s & _ & Sh & R) (L' & t' & s' & _ & Sh' & R').
  destruct (R i Hi) as (Lo & Ho), (R' i' Hi') as (Lo' & Ho').
  apply (nth_ext _ _ 0%Z 0%Z); [congruence|]. intros o Hoo. rewrite Lo in Hoo.
  destruct (Ho o Hoo) as (nb & NP & El), (Ho' o Hoo) as (nb' & NP' & El').
  assert (Eff : forall u u' p, p < ncol D -> effective u (at2 D i p) = effective u' (at2 D' i' p)).
  { intros u u' p Hp. rewrite <- Hrow by exact Hp. destruct (F i p Hi Hp) as (r & ->). reflexivity. }
  assert (NP2 : nearest_positions (fun p => effective t (at2 D i p)) (ncol D) K nb').
  { destruct NP' as (A & B & C & O). rewrite <- Hc in *. repeat split; auto. intros p q Hp Hq Hn. rewrite !(Eff t t') by auto. now apply O. }
  assert (P : Permutation nb nb').
  { apply (nearest_unique (fun p => effective t (at2 D i p)) (ncol D) K); auto. intros p q Hp Hq E.
    destruct (Nat.eq_dec p q) as [|Ne]; [assumption|exfalso]. apply (NT p q Hp Hq Ne).
    destruct (F i p Hi Hp) as (r & Er), (F i q Hi Hq) as (r' & Er'). rewrite Er, Er' in *. cbn in E. now subst. }
  assert (W : forall p, In p nb -> weight w (fun p => effective t (at2 D i p) + s)%R nb p = weight w (fun p => effective t' (at2 D' i' p) + s')%R nb' p).
  { intros p Hp. rewrite (weight_perm _ _ nb nb' p P). destruct Hw as [-> | (N1 & N2)]; [reflexivity|].
    rewrite (shift_zero D t s N1 Sh), (shift_zero D' t' s' N2 Sh'). destruct NP as (_ & _ & Bd & _).
    destruct w; [reflexivity|]. cbn. rewrite (Eff t t' p) by auto.
    assert (X : existsb (fun q => if Req_EM_T (effective t (at2 D i q) + 0) 0 then true else false) nb'
              = existsb (fun q => if Req_EM_T (effective t' (at2 D' i' q) + 0) 0 then true else false) nb').
    { assert (G : forall l, (forall q, In q l -> In q nb') -> existsb (fun q => if Req_EM_T (effective t (at2 D i q) + 0) 0 then true else false) l
              = existsb (fun q => if Req_EM_T (effective t' (at2 D' i' q) + 0) 0 then true else false) l).
      { induction l as [|q l IH]; intros Hl; [reflexivity|]. cbn [existsb]. rewrite IH by (intros; apply Hl; now right).
        rewrite (Eff t t' q); [reflexivity|]. apply Bd. apply (Permutation_in _ (Permutation_sym P)), Hl. now left. }
      apply G. auto. }
    rewrite X. reflexivity. }
  apply (elected_w_unique (weight w (fun p => effective t' (at2 D' i' p) + s')%R nb') (lab' o i') nb').
  2:{ exact El'. }
  apply (elected_w_perm _ _ _ _ _ _ P W).
  destruct El as (A & B). assert (Lb : map (lab o i) nb = map (lab' o i') nb) by (apply map_ext_in; intros p Hp; apply Hlab; destruct NP as (_ & _ & Bd & _); auto).
  assert (T : forall c, total (weight w (fun p => effective t (at2 D i p) + s)%R nb) (lab o i) nb c = total (weight w (fun p => effective t (at2 D i p) + s)%R nb) (lab' o i') nb c).
  { intros c. unfold total. f_equal. apply map_ext_in. intros p Hp. rewrite Hlab; [reflexivity|]. destruct NP as (_ & _ & Bd & _); auto. }
  split; [now rewrite <- Lb|]. intros c' Hc'. rewrite <- Lb in Hc'. rewrite <- !T. now apply B.
Qed.

(** the query [i] alone *)
Definition alone (D : arr2 xr) (i : nat) : arr2 xr := Arr2 1 (ncol D) (fun _ j => at2 D i j).

(** ** (3) a prediction does not depend on the other queries if the distances are
    finite, those of the query differ, and the votes are not weighted or no
    distance is negative *)
Theorem C153_other_queries_do_not_matter :
  forall argpart argsort, argpart_ok argpart -> argsort_ok argsort ->
  forall w K (D : arr2 xr) ind ys pred i, 1 <= K <= ncol D -> i < nrow D ->
    (forall i, i < nrow D -> length (ind i) = ncol D) ->
    all_finite D -> no_ties D i -> w = WUniform \/ no_negative D ->
    predict_index_w xsum argpart argsort w K D ind ys = Ok pred ->
    predict_index_w xsum argpart argsort w K (alone D i) (fun _ => ind i) ys = Ok [nth i pred []].
Proof.
  intros ap asr AP AS w K D ind ys pred i HK Hi HL Fin NT Hw E.
  destruct (C153_index ap asr AP AS w K D ind ys) as (_ & R); try lia; [exact HL|]. destruct (R (proj2 HK)) as (p1 & E1 & R1).
  assert (p1 = pred) by congruence. subst p1.
  destruct (C153_index ap asr AP AS w K (alone D i) (fun _ => ind i) ys) as (_ & R'); cbn; try lia; [intros _ _; now apply HL|].
  destruct (R' (proj2 HK)) as (p2 & E2 & R2). rewrite E2. f_equal.
  assert (L2 : length p2 = 1) by apply R2. destruct p2 as [|x [|]]; try discriminate. f_equal. change x with (nth 0 [x] []). symmetry.
  refine (rule_same_row w K _ _ (length ys) D (alone D i) pred [x] i 0 Fin _ _ NT (@eq_refl nat (ncol D)) Hi Nat.lt_0_1 (fun _ _ => eq_refl) _ R1 R2); [| |reflexivity].
  - intros a b Ha Hb. cbn in *. apply Fin; auto.
  - destruct Hw as [H|H]; [now left|right]. split; [exact H|]. intros a b Ha Hb. cbn in *. apply H; auto.
Qed.

Theorem C153_other_queries_do_not_matter_fixed :
  forall argpart argsort, argpart_ok argpart -> argsort_ok argsort ->
  forall w kw (D : arr2 xr) ys pred i, let K := match kw with Some k => k | None => 5 end in
    1 <= K <= ncol D -> i < nrow D -> (forall y, In y ys -> length y = ncol D) ->
    all_finite D -> no_ties D i -> w = WUniform \/ no_negative D ->
    predict_fixed_w xsum argpart argsort w kw D ys = Ok pred ->
    predict_fixed_w xsum argpart argsort w kw (alone D i) ys = Ok [nth i pred []].
Proof.
  intros ap asr AP AS w kw D ys pred i K HK Hi HL Fin NT Hw E.
  destruct (C153_fixed ap asr AP AS w kw D ys) as (_ & R); try (fold K; lia); [exact HL|]. destruct (R (proj2 HK)) as (p1 & E1 & R1).
  assert (p1 = pred) by congruence. subst p1.
  destruct (C153_fixed ap asr AP AS w kw (alone D i) ys) as (_ & R'); fold K; cbn; try lia; [exact HL|].
  destruct (R' (proj2 HK)) as (p2 & E2 & R2). rewrite E2. f_equal.
  assert (L2 : length p2 = 1) by apply R2. destruct p2 as [|x [|]]; try discriminate. f_equal. change x with (nth 0 [x] []). symmetry.
  refine (rule_same_row w K _ _ (length ys) D (alone D i) pred [x] i 0 Fin _ _ NT (@eq_refl nat (ncol D)) Hi Nat.lt_0_1 (fun _ _ => eq_refl) _ R1 R2); [| |reflexivity].
  - intros a b Ha Hb. cbn in *. apply Fin; auto.
  - destruct Hw as [H|H]; [now left|right]. split; [exact H|]. intros a b Ha Hb. cbn in *. apply H; auto.
Qed.

Lemma rule_smallest K lab outs (D : arr2 xr) pred i p m o : 1 <= K -> all_finite D -> i < nrow D -> p < ncol D -> o < outs ->
  at2 D i p = XFin m -> (m < 0)%R ->
  (forall i' j r, i' < nrow D -> j < ncol D -> at2 D i' j = XFin r -> (m <= r)%R) ->
  (forall j r, j < ncol D -> j <> p -> at2 D i j = XFin r -> (m < r)%R) ->
  weighted_rule WDistance K lab outs D pred -> nth o (nth i pred []) 0%Z = lab o i p.
Proof.
  intros HK Fin Hi Hp Hoo Em Hm Min Uniq (L & t & s & _ & Sh & R). destruct (R i Hi) as (_ & Ho). destruct (Ho o Hoo) as (nb & NP & El).
  assert (Es : s = (- m)%R).
  { destruct Sh as (a & b & Ha & Hb & M & ->). destruct (Fin a b Ha Hb) as (r & Er). rewrite Er. specialize (M i p Hi Hp). rewrite Er, Em in M. cbn in *.
    specialize (Min a b r Ha Hb Er). replace r with m by lra. apply Rmax_right. lra. }
  destruct NP as (Ln & ND & Bd & O).
  assert (Ip : In p nb).
  { destruct (in_dec Nat.eq_dec p nb) as [|Hn]; [assumption|exfalso]. destruct nb as [|q nb]; [cbn in Ln; lia|].
    assert (Hq : q < ncol D) by (apply Bd; now left). specialize (O q p (or_introl eq_refl) Hp Hn). cbv beta in O. rewrite Em in O.
    destruct (Fin i q Hi Hq) as (r & Er). rewrite Er in O. cbn in O. specialize (Uniq q r Hq ltac:(intros ->; apply Hn; now left) Er). lra. }
  set (d := fun p => (effective t (at2 D i p) + s)%R) in *.
  assert (D0 : d p = 0%R) by (unfold d; rewrite Em; cbn; lra).
  assert (Dpos : forall q, In q nb -> q <> p -> (0 < d q)%R).
  { intros q Hq Ne. unfold d. destruct (Fin i q Hi (Bd q Hq)) as (r & Er). rewrite Er. cbn. specialize (Uniq q r (Bd q Hq) Ne Er). lra. }
  assert (Ex : existsb (fun q => if Req_EM_T (d q) 0 then true else false) nb = true).
  { apply existsb_exists. exists p. split; [exact Ip|]. destruct (Req_EM_T (d p) 0); [reflexivity|contradiction]. }
  assert (W : forall q, In q nb -> weight WDistance d nb q = if q =? p then 1%R else 0%R).
  { intros q Hq. unfold weight. rewrite Ex. destruct (Nat.eqb_spec q p) as [->|Ne]; destruct (Req_EM_T (d _) 0) as [Z|Z]; try reflexivity; [contradiction|].
    specialize (Dpos q Hq Ne). lra. }
  destruct El as (A & B). set (c := nth o (nth i pred []) 0%Z) in *.
  destruct (Z.eq_dec c (lab o i p)) as [|Ne]; [assumption|exfalso].
  destruct (B (lab o i p) (in_map (lab o i) _ _ Ip)) as (Le & _).
  assert (T0 : total (weight WDistance d nb) (lab o i) nb c = 0%R).
  { rewrite (total_ext _ (fun q => if q =? p then 1%R else 0%R)) by exact W. clear - Ne.
    induction nb as [|q nb IH]; [reflexivity|]. rewrite total_cons, IH. destruct (Z.eqb_spec (lab o i q) c) as [E|]; [|lra].
    destruct (Nat.eqb_spec q p) as [->|]; [congruence|lra]. }
  assert (T1 : (0 < total (weight WDistance d nb) (lab o i) nb (lab o i p))%R).
  { apply total_pos; [|exact Ip|rewrite W, Nat.eqb_refl by exact Ip; lra]. intros q Hq. rewrite W by exact Hq. destruct (q =? p); lra. }
  lra.
Qed.

(** ** (4) DEFECT: with knn__weights='distance' and negative distances the query
    that has the smallest distance of all is classified by its nearest candidate
    alone, whatever n_neighbors is *)
Theorem C153_smallest_distance_decides_alone :
  forall argpart argsort, argpart_ok argpart -> argsort_ok argsort ->
  forall K (D : arr2 xr) ind ys pred i p m o, 1 <= K <= ncol D -> all_finite D -> i < nrow D -> p < ncol D -> o < length ys ->
    (forall i, i < nrow D -> length (ind i) = ncol D) ->
    at2 D i p = XFin m -> (m < 0)%R ->
    (forall i' j r, i' < nrow D -> j < ncol D -> at2 D i' j = XFin r -> (m <= r)%R) ->
    (forall j r, j < ncol D -> j <> p -> at2 D i j = XFin r -> (m < r)%R) ->
    predict_index_w xsum argpart argsort WDistance K D ind ys = Ok pred ->
    nth o (nth i pred []) 0%Z = nth (nth p (ind i) 0) (nth o ys []) 0%Z.
Proof.
  intros ap asr AP AS K D ind ys pred i p m o HK Fin Hi Hp Hoo HL Em Hm Min Uniq E.
  destruct (C153_index ap asr AP AS WDistance K D ind ys) as (_ & R); try lia; [exact HL|]. destruct (R (proj2 HK)) as (p1 & E1 & R1).
  assert (p1 = pred) by congruence. subst p1.
  rewrite (rule_smallest K _ (length ys) D pred i p m o (proj1 HK) Fin Hi Hp Hoo Em Hm Min Uniq R1).
  rewrite (nth_indep _ 0%Z (nth 0 (nth o ys []) 0%Z)) by (rewrite map_length, HL; auto). apply (map_nth (fun a => nth a (nth o ys []) 0%Z)).
Qed.

(** two queries with three candidates *)
Definition two_queries : arr2 xr :=
  Arr2 2 3 (fun i j => XFin (nth j (nth i [[-1; 0; 1/10]; [-10; 0; 0]]%R []) 0%R)).

(** ** (5) DEFECT: the same query, with the same distances -1, 0, 0.1 to candidates
    of class 0, 1, 1, gets class 0 alone and class 1 together with another query,
    for every legal argpartition and argsort *)
Theorem C153_depends_on_other_queries :
  forall argpart argsort, argpart_ok argpart -> argsort_ok argsort ->
  exists c,
    predict_fixed_w xsum argpart argsort WDistance (Some 3) two_queries [[0; 1; 1]%Z] = Ok [[1]%Z; [c]] /\
    predict_fixed_w xsum argpart argsort WDistance (Some 3) (alone two_queries 0) [[0; 1; 1]%Z] = Ok [[0]%Z].
Proof.
  intros ap asr AP AS.
  assert (Fin : all_finite two_queries) by (intros i j _ _; eexists; reflexivity).
  assert (Fin0 : all_finite (alone two_queries 0)) by (intros i j _ _; eexists; reflexivity).
  destruct (C153_fixed ap asr AP AS WDistance (Some 3) two_queries [[0; 1; 1]%Z]) as (_ & R); try (cbn; lia); [intros y [<-|[]]; reflexivity|].
  destruct (C153_fixed ap asr AP AS WDistance (Some 3) (alone two_queries 0) [[0; 1; 1]%Z]) as (_ & R'); try (cbn; lia); [intros y [<-|[]]; reflexivity|].
  destruct (R (le_n 3)) as (p & E & W), (R' (le_n 3)) as (p' & E' & W'). rewrite E, E'. clear R R' E E'.
  assert (H0 : nth 0 (nth 0 p' []) 0%Z = 0%Z).
  { refine (rule_smallest 3 _ 1 (alone two_queries 0) p' 0 0 (-1)%R 0 _ Fin0 _ _ _ eq_refl _ _ _ W'); cbn; try lia; try lra.
    - intros i' j r Hi Hj Er. destruct j as [|[|[|j]]]; try lia; injection Er as <-; lra.
    - intros j r Hj Ne Er. destruct j as [|[|[|j]]]; try lia; injection Er as <-; lra. }
  assert (H1 : nth 0 (nth 0 p []) 0%Z = 1%Z).
  { destruct W as (_ & t & s & _ & Sh & RR). destruct (RR 0 ltac:(cbn; lia)) as (_ & Ho). destruct (Ho 0 ltac:(cbn; lia)) as (nb & (Ln & ND & Bd & _) & El).
    assert (Es : s = 10%R).
    { destruct Sh as (a & b & Ha & Hb & M & ->). specialize (M 1 0 ltac:(cbn; lia) ltac:(cbn; lia)). cbn in Ha, Hb, M |- *.
      destruct a as [|[|a]]; try lia; destruct b as [|[|[|b]]]; try lia; cbn in M |- *; try lra.
      rewrite Rmax_right; lra. }
    subst s.
    assert (P : Permutation nb [0; 1; 2]).
    { apply NoDup_Permutation_bis; [exact ND|rewrite Ln; cbn; lia|]. intros q Hq. specialize (Bd q Hq). cbn in Bd |- *. lia. }
    apply (elected_w_perm _ _ _ _ _ _ P (fun p _ => weight_perm _ _ _ _ p P)) in El. destruct El as (A & B). cbn [map] in A. set (c := nth 0 (nth 0 p []) 0%Z) in *.
    destruct (B 1%Z) as (Le & _); [cbn; auto|]. cbn in A. destruct A as [A|[A|[A|[]]]]; try (now rewrite <- A). rewrite <- A in Le. exfalso. revert Le.
    rewrite !total_cons. cbn [Z.eqb nth total map]. unfold weight, effective. cbn.
    repeat match goal with |- context [Req_EM_T ?a ?b] => destruct (Req_EM_T a b); [exfalso; lra|] end. cbn. lra. }
  destruct W as (Lp & t1 & s1 & _ & _ & RR), W' as (Lp' & t2 & s2 & _ & _ & RR').
  destruct (RR 0 ltac:(cbn; lia)) as (L0 & _), (RR 1 ltac:(cbn; lia)) as (L1 & _), (RR' 0 ltac:(cbn; lia)) as (L2 & _).
  cbn in Lp, Lp', L0, L1, L2. clear RR RR'.
  destruct p as [|x [|y [|]]]; try discriminate. destruct p' as [|z [|]]; try discriminate. cbn in *.
  destruct x as [|x1 [|]]; try discriminate. destruct y as [|y1 [|]]; try discriminate. destruct z as [|z1 [|]]; try discriminate. cbn in *. subst. eauto.
Qed.

(** one candidate at distance 1, one at infinite distance *)
Definition with_inf : arr2 xr := Arr2 2 2 (fun i j => if i =? 0 then if j =? 0 then XFin 1 else XPInf else XFin 2).

(** ** (6) DEFECT: an infinite distance counts as the largest finite one of the
    call.  For a query alone, with one candidate at distance 1 and one at infinite
    distance, a legal argpartition elects the label of the latter; in a call with a
    query whose distances are 2, none does *)
Definition late_argpart (l : list xr) (ks : list nat) : list nat :=
  if (length l =? 2) && sle (vat l 1) (vat l 0) then [1; 0] else ref_argpart l ks.
Lemma late_argpart_ok : argpart_ok late_argpart.
Proof.
  intros l ks Hks. unfold late_argpart. destruct (Nat.eqb_spec (length l) 2) as [L|]; cbn [andb]; [|now apply (ref_argpart_ok xr_cmp)].
  destruct (sle (vat l 1) (vat l 0)) eqn:E; [|now apply (ref_argpart_ok xr_cmp)]. split.
  - rewrite L. apply perm_swap.
  - intros k Hk a. specialize (Hks k Hk). rewrite L in *. split.
    + intros Ha. assert (a = 0) by lia. assert (k = 1) by lia. subst. exact E.
    + intros Ha Hb. assert (a = 1) by lia. assert (k = 0) by lia. subst. exact E.
Qed.
Theorem C153_infinite_distance_ties :
  (exists argpart : list xr -> list nat -> list nat, argpart_ok argpart /\
     forall argsort, argsort_ok argsort ->
       predict_fixed_w xsum argpart argsort WUniform (Some 1) (alone with_inf 0) [[0; 1]%Z] = Ok [[1]%Z]) /\
  (forall argpart argsort, argpart_ok argpart -> argsort_ok argsort ->
     exists c, predict_fixed_w xsum argpart argsort WUniform (Some 1) with_inf [[0; 1]%Z] = Ok [[0]%Z; [c]]).
Proof.
  split.
  - exists late_argpart. split; [exact late_argpart_ok|]. intros asr AS.
    destruct (finite_dists_shift (alone with_inf 0) ltac:(cbn; lia) ltac:(cbn; lia)) as (F & top & s & E & A & B & T & _ & H).
    unfold predict_fixed_w. rewrite E. cbn [bind]. rewrite A. cbn [nrow alone seq mapM].
    assert (Ht : top = 1%R).
    { destruct T as [(i & j & (Hi & Hj) & Et & _)|(-> & _)]; [|reflexivity]. cbn in Hi, Hj, Et. destruct j as [|[|j]]; try lia; cbn in Et; congruence. }
    replace (rowl F 0) with [XFin (1 + s); XFin (1 + s)].
    2:{ unfold rowl. rewrite B. cbn [alone ncol with_inf seq map]. rewrite !H by (cbn; lia). cbn. now rewrite Ht. }
    unfold knn_row_w. cbn [Nat.eqb existsb nisfin Num_xr negb orb length Nat.ltb Nat.leb guard bind].
    assert (Sl : sle (XFin (1 + s)) (XFin (1 + s)) = true) by (apply (sle_refl xr_cmp)).
    assert (La : late_argpart [XFin (1 + s); XFin (1 + s)] [1 - 1] = [1; 0]).
    { unfold late_argpart. cbn [length Nat.eqb vat nth andb]. now rewrite Sl. }
    rewrite !La.
    match goal with |- context [asr ?l] => destruct (AS l) as (P & _) end. cbn [firstn map length seq Nat.sub] in P |- *. apply Permutation_sym, Permutation_length_1_inv in P. rewrite P. reflexivity.
  - intros ap asr AP AS.
    destruct (C153_fixed ap asr AP AS WUniform (Some 1) with_inf [[0; 1]%Z]) as (_ & R); try (cbn; lia); [intros y [<-|[]]; reflexivity|].
    destruct (R ltac:(cbn; lia)) as (p & E & W). rewrite E. clear R E.
    assert (H0 : nth 0 (nth 0 p []) 0%Z = 0%Z).
    { destruct W as (_ & t & s & T & Sh & RR). destruct (RR 0 ltac:(cbn; lia)) as (_ & Ho). destruct (Ho 0 ltac:(cbn; lia)) as (nb & (Ln & ND & Bd & O) & (A & _)).
      assert (Ht : (1 < t)%R).
      { destruct T as [(i & j & (Hi & Hj) & Et & M)|(_ & N)].
        - specialize (M 1 0 2%R ltac:(cbn; lia) eq_refl). lra.
        - specialize (N 0 0 ltac:(cbn; lia)). discriminate. }
      destruct nb as [|q [|]]; try discriminate. assert (Hq := Bd q (or_introl eq_refl)). cbn in Hq. destruct q as [|[|q]]; try lia.
      - cbn in A. destruct A as [A|[]]. now rewrite <- A.
      - specialize (O 1 0 (or_introl eq_refl) ltac:(cbn; lia) ltac:(cbn; lia)). cbn in O. lra. }
    destruct W as (Lp & t1 & s1 & _ & _ & RR). destruct (RR 0 ltac:(cbn; lia)) as (L0 & _), (RR 1 ltac:(cbn; lia)) as (L1 & _). cbn in Lp, L0, L1. clear RR.
    destruct p as [|x [|y [|]]]; try discriminate. cbn in *. destruct x as [|x1 [|]]; try discriminate. destruct y as [|y1 [|]]; try discriminate. cbn in *. subst. eauto.
Qed.

(** cases that meet the hypotheses *)
Example C153_case :
  argpart_ok (ref_argpart (V := xr)) /\ argsort_ok (ref_argsort (V := xr)) /\
  let D : arr2 xr := Arr2 2 3 (fun i j => XFin (nth j (nth i [[1; 2; 3]; [4; 0; 5]]%R []) 0%R)) in
  all_finite D /\ no_ties D 0 /\ no_negative D /\
  exists pred, predict_fixed_w xsum ref_argpart ref_argsort WDistance (Some 2) D [[0; 1; 1]; [5; 6; 7]]%Z = Ok pred /\
    nth 0 (nth 0 pred []) 9%Z = 0%Z.
Proof.
  split; [exact (ref_argpart_ok xr_cmp)|]. split; [exact (ref_argsort_ok xr_cmp)|]. intros D.
  split; [intros i j _ _; eexists; reflexivity|]. split.
  { intros p q Hp Hq Ne. cbn in Hp, Hq. destruct p as [|[|[|p]]], q as [|[|[|q]]]; try lia; cbn; intros E; injection E as E; lra. }
  split.
  { intros i j Hi Hj. cbn in Hi, Hj. destruct i as [|[|i]]; try lia; destruct j as [|[|[|j]]]; try lia; eexists; (split; [reflexivity|cbn; lra]). }
  destruct (C153_fixed ref_argpart ref_argsort (ref_argpart_ok xr_cmp) (ref_argsort_ok xr_cmp) WDistance (Some 2) D [[0; 1; 1]; [5; 6; 7]]%Z) as (_ & R);
    try (cbn; lia); [intros y [<-|[<-|[]]]; reflexivity|].
  destruct (R ltac:(cbn; lia)) as (pred & E & W). exists pred. split; [exact E|].
  destruct W as (_ & t & s & _ & Sh & RR). destruct (RR 0 ltac:(cbn; lia)) as (L0 & Ho). destruct (Ho 0 ltac:(cbn; lia)) as (nb & NP & El).
  rewrite (nth_indep _ 9%Z 0%Z) by (rewrite L0; cbn; lia).
  apply shift_zero in Sh.
  2:{ intros i j Hi Hj. cbn in Hi, Hj. destruct i as [|[|i]]; try lia; destruct j as [|[|[|j]]]; try lia; eexists; (split; [reflexivity|cbn; lra]). }
  subst s.
  assert (NP' : nearest_positions (fun p => effective t (at2 D 0 p)) 3 2 [0; 1]).
  { split; [reflexivity|]. split; [repeat constructor; cbn; intuition congruence|]. split; [cbn; intros p [<-|[<-|[]]]; lia|].
    intros p q Hp Hq Hn. assert (q = 2) by (cbn in Hn; lia). subst q. destruct Hp as [<-|[<-|[]]]; cbn; lra. }
  assert (P : Permutation nb [0; 1]).
  { apply (nearest_unique (fun p => effective t (at2 D 0 p)) 3 2); auto. intros p q Hp Hq. destruct p as [|[|[|p]]], q as [|[|[|q]]]; try lia; cbn; lra. }
  apply (elected_w_perm _ _ _ _ _ _ P (fun p _ => weight_perm _ _ _ _ p P)) in El. destruct El as (A & B).
  set (c := nth 0 (nth 0 pred []) 0%Z) in *. destruct (B 0%Z) as (Le & _); [cbn; auto|]. cbn in A. destruct A as [A|[A|[]]]; [now rewrite <- A|].
  rewrite <- A in Le. exfalso. revert Le. rewrite !total_cons. cbn [Z.eqb nth total map]. unfold weight, effective. cbn.
  repeat match goal with |- context [Req_EM_T ?a ?b] => destruct (Req_EM_T a b); [exfalso; lra|] end. cbn. lra.
Qed.

Print Assumptions C153_fixed.
Print Assumptions C153_index.
Print Assumptions C153_other_queries_do_not_matter.
Print Assumptions C153_other_queries_do_not_matter_fixed.
Print Assumptions C153_smallest_distance_decides_alone.
Print Assumptions C153_depends_on_other_queries.
Print Assumptions C153_infinite_distance_ties.
Print Assumptions C153_case.
