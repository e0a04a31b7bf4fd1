(** Property C204: predictions with votes weighted by a function of the caller. *)
From Coq Require Import ZArith List Arith Lia Bool Permutation Sorted Reals Lra.
From Verif Require Import Py Num NumT Arr Sort S_ApproxPredict M_GK M_Approx M_ApproxPredict M_ApproxWeights M_ApproxWeightFn S_ApproxWeights.
From Verif Require Import P_Neighbors P_LS P_Approx P_ApproxANN P_ApproxPredict P_GK2 P_ApproxWeights Properties_ApproxWeights.
Import ListNotations.
Local Open Scope nat_scope.

(** ** Specification *)
(** [c] is the smallest label of the [n] candidates *)
Definition smallest_label (lab : nat -> Z) (n : nat) (c : Z) : Prop :=
  (exists p, p < n /\ lab p = c) /\ forall p, p < n -> (c <= lab p)%Z.
(** the label with the most weight among the voters [nb] wins (the smallest of several)
    if this weight is positive, else the smallest label of all candidates *)
Definition winner (wt : nat -> R) (lab : nat -> Z) (n : nat) (nb : list nat) (c : Z) : Prop :=
  (elected_by_weight wt lab nb c /\ (0 < total wt lab nb c)%R) \/
  ((forall c', In c' (map lab nb) -> (total wt lab nb c' <= 0)%R) /\ smallest_label lab n c).
(** the predictions of all queries and outputs, a voter at distance d having weight [h d] *)
Definition function_rule (h : R -> R) (K : nat) (lab : nat -> nat -> nat -> Z) (outputs : nat)
    (D : arr2 xr) (pred : list (list Z)) : Prop :=
  length pred = nrow D /\ exists top s, largest_finite D top /\ shift_of D top s /\
  forall i, i < nrow D -> length (nth i pred []) = outputs /\
  forall o, o < outputs -> exists nb,
    nearest_positions (fun p => effective top (at2 D i p)) (ncol D) K nb /\
    winner (fun p => h (effective top (at2 D i p) + s)%R) (lab o i) (ncol D) nb (nth o (nth i pred []) 0%Z).
(** [wf] computes the weights from the distances one by one, by [h] *)
Definition pointwise (wf : list xr -> result (list xr)) (h : R -> R) : Prop :=
  forall l, wf (map XFin l) = Ok (map (fun r => XFin (h r)) l).

(** ** Weighted votes with any weights *)
Lemma wmode_any (t : Z -> R) : forall l best old, StronglySorted Z.lt l ->
  let st := fold_left (fun (st : Z * xr) c => if nlt (snd st) (XFin (t c)) then (c, XFin (t c)) else st) l (best, XFin old) in
  exists m, snd st = XFin m /\ (old <= m)%R /\ (forall c, In c l -> (t c <= m)%R) /\
    ((m = old /\ fst st = best) \/
     ((old < m)%R /\ In (fst st) l /\ t (fst st) = m /\ forall c, In c l -> t c = m -> (fst st <= c)%Z)).
Proof.
  induction l as [|c l IH]; intros best old S; cbv zeta.
  - exists old. cbn. repeat split; try lra. intros c []. now left.
  - inversion S as [|? ? Ss Sf]; subst. rewrite Forall_forall in Sf. cbn [fold_left snd].
    assert (Q : nlt (XFin old) (XFin (t c)) = if Rlt_dec old (t c) then true else false) by (cbn; now destruct (Rlt_dec old (t c))).
    rewrite Q. destruct (Rlt_dec old (t c)) as [H|H].
    + destruct (IH c (t c) Ss) as (m & E & L & B & K).
      exists m. split; [exact E|]. split; [lra|]. split; [intros x [<-|Hx]; auto|]. right.
      destruct K as [(-> & ->) | (K1 & K2 & K3 & K4)].
      * split; [lra|]. split; [now left|]. split; [reflexivity|]. intros x [<-|Hx] _; [lia|]. specialize (Sf x Hx). lia.
      * split; [lra|]. split; [now right|]. split; [exact K3|]. intros x [<-|Hx] Ex; [lra|auto].
    + destruct (IH best old Ss) as (m & E & L & B & K).
      exists m. split; [exact E|]. split; [lra|]. split; [intros x [<-|Hx]; auto; lra|].
      destruct K as [K | (K1 & K2 & K3 & K4)]; [now left|]. right. split; [exact K1|]. split; [now right|]. split; [exact K3|].
      intros x [<-|Hx] Ex; [lra|auto].
Qed.
Lemma smallest_hd labels n : length labels = n -> 0 < n -> smallest_label (fun p => nth p labels 0%Z) n (hd 0%Z (unique_labels labels)).
Proof.
  intros L Hn. pose proof (unique_sorted labels) as S. pose proof (fun z => unique_In z labels) as U. destruct (unique_labels labels) as [|c u] eqn:E.
  - exfalso. destruct labels as [|z labels]; [cbn in L; lia|]. destruct (proj2 (U z)). now left.
  - cbn [hd]. split.
    + destruct (In_nth labels c 0%Z) as (p & Hp & Ep); [apply U; now left|]. exists p. split; [lia|exact Ep].
    + intros p Hp. inversion S as [|? ? _ F]; subst. rewrite Forall_forall in F. assert (I : In (nth p labels 0%Z) (c :: u)) by (apply U, nth_In; exact Hp).
      destruct I as [->|I]; [lia|]. specialize (F _ I). lia.
Qed.
Lemma weighted_mode_winner wt labels n nb : length labels = n -> 0 < n -> let lab := fun p => nth p labels 0%Z in
  winner wt lab n nb (weighted_mode xsum (hd 0%Z (unique_labels labels)) (map lab nb) (map (fun p => XFin (wt p)) nb)).
Proof.
  intros L Hn lab. pose proof (smallest_hd labels n L Hn) as Sm. fold lab in Sm. revert Sm. generalize (hd 0%Z (unique_labels labels)). intros dflt Sm. unfold weighted_mode.
  assert (C : forall c, xsum (map (fun q => nmul (if (fst q =? c)%Z then n1 else n0) (snd q))
               (combine (map lab nb) (map (fun p => XFin (wt p)) nb))) = XFin (total wt lab nb c)).
  { intros c. unfold total. rewrite <- xsum_fin, map_map. f_equal. generalize lab. clear. intros lab. induction nb as [|q nb IH]; [reflexivity|]. cbn [map combine fst snd].
    f_equal; [|exact IH]. destruct (lab q =? c)%Z; cbn; f_equal; lra. }
  set (u := unique_labels (map lab nb)).
  replace (fold_left _ u (dflt, n0)) with
    (fold_left (fun (st : Z * xr) c => if nlt (snd st) (XFin (total wt lab nb c)) then (c, XFin (total wt lab nb c)) else st) u (dflt, XFin 0)).
  2:{ change (@n0 xr _) with (XFin 0). generalize (dflt, XFin 0). induction u as [|c u IH]; intros st; [reflexivity|]. cbn [fold_left]. rewrite !C. apply IH. }
  destruct (wmode_any (total wt lab nb) u dflt 0%R) as (m & _ & Lm & B & K); [apply unique_sorted|].
  destruct K as [(-> & E) | (M & K2 & K3 & K4)].
  - right. split; [intros c' Hc'; apply B; now apply unique_In|]. rewrite E. exact Sm.
  - left. split; [|rewrite K3; exact M]. split; [exact (proj1 (unique_In _ _) K2)|].
    intros c' Hc'. apply (proj2 (unique_In c' (map lab nb))) in Hc'. fold u in Hc'. rewrite K3. split; [now apply B|now apply K4].
Qed.

Section Run.
  Variable argpart : list xr -> list nat -> list nat.
  Variable argsort : list xr -> list nat.
  Hypothesis AP : argpart_ok argpart.
  Hypothesis AS : argsort_ok argsort.

  (** the voters of one row *)
  Definition voters (K : nat) (row : list xr) : list nat :=
    let nb := firstn K (argpart row [K - 1]) in take 0 nb (argsort (map (vat row) nb)).
  Lemma voters_nearest (g : nat -> R) n K : 1 <= K -> K <= n -> let row := map (fun p => XFin (g p)) (seq 0 n) in
    nearest_positions g n K (voters K row) /\ map (vat row) (voters K row) = map XFin (map g (voters K row)).
  Proof.
    intros HK H row. assert (Lr : length row = n) by (unfold row; now rewrite map_length, seq_length).
    set (nb0 := firstn K (argpart row [K - 1])).
    assert (NP0 : nearest_positions g n K nb0). { apply argpart_nearest; [lia|]. apply AP. intros z [<-|[]]. fold row. lia. }
    assert (P : Permutation nb0 (voters K row)).
    { destruct (AS (map (vat row) nb0)) as (P & _). rewrite map_length in P. unfold voters, take. fold nb0.
      rewrite (Permutation_map (fun k => nth k nb0 0) P). now rewrite map_nth_seq0. }
    assert (NP := nearest_perm _ _ _ _ _ P NP0). split; [exact NP|]. destruct NP as (Ln & ND & Bd & O).
    rewrite map_map. apply map_ext_in. intros p Hp. unfold vat, row. rewrite (nth_indep _ nnan (XFin (g 0))) by (rewrite map_length, seq_length; auto).
    rewrite (map_nth (fun p => XFin (g p))), seq_nth by auto. reflexivity.
  Qed.
  Lemma row_guard (g : nat -> R) n K : 1 <= K -> let row := map (fun p => XFin (g p)) (seq 0 n) in
    ((K =? 0) || existsb (fun v => negb (nisfin v)) row || (length row <? K))%bool = (n <? K).
  Proof.
    intros HK row. assert (Fi : existsb (fun v => negb (nisfin v)) row = false).
    { destruct (existsb _ _) eqn:Ex; [|reflexivity]. apply existsb_exists in Ex as (x & Ix & Fx). apply in_map_iff in Ix as (l & <- & _). discriminate. }
    rewrite Fi. unfold row. rewrite map_length, seq_length. replace (K =? 0) with false by (symmetry; apply Nat.eqb_neq; lia). reflexivity.
  Qed.
  Lemma row_run_f wf h (g : nat -> R) n K labels : 1 <= K -> length labels = n -> pointwise wf h ->
    let row := map (fun p => XFin (g p)) (seq 0 n) in
    (n < K -> knn_row_f xsum argpart argsort wf K row labels = Raise ValueError) /\
    (K <= n -> exists c nb, knn_row_f xsum argpart argsort wf K row labels = Ok c /\ nearest_positions g n K nb /\
       winner (fun p => h (g p)) (fun p => nth p labels 0%Z) n nb c).
  Proof.
    intros HK HL Hw row. unfold knn_row_f. unfold row. rewrite (row_guard g n K HK). fold row. split.
    - intros H. destruct (Nat.ltb_spec n K); [reflexivity|lia].
    - intros H. destruct (Nat.ltb_spec n K); [lia|]. cbn [guard bind]. destruct (voters_nearest g n K HK H) as (NP & Ev). fold row in NP, Ev.
      change (take 0 (firstn K (argpart row [K - 1])) _) with (voters K row). rewrite Ev, Hw, map_map. cbn [bind].
      eexists. exists (voters K row). split; [reflexivity|]. split; [exact NP|]. apply (weighted_mode_winner (fun p => h (g p))); [exact HL|lia].
  Qed.

  Lemma predict_run_f wf h K (D : arr2 xr) (f : nat -> list Z -> list Z) ys : 1 <= K -> 0 < nrow D -> 0 < ncol D -> pointwise wf h ->
    (forall i y, i < nrow D -> In y ys -> length (f i y) = ncol D) ->
    let r := bind (finite_dists D) (fun F => mapM (fun i => mapM (fun y => knn_row_f xsum argpart argsort wf K (rowl F i) (f i y)) ys) (seq 0 (nrow F))) in
    (ncol D < K -> ys <> [] -> r = Raise ValueError) /\
    (K <= ncol D -> exists pred, r = Ok pred /\ function_rule h K (fun o i p => nth p (f i (nth o ys [])) 0%Z) (length ys) D pred).
  Proof.
    intros HK Hr Hc Hw HL. destruct (finite_dists_shift D Hr Hc) as (F & top & s & E & A & B & T & S & H). cbv zeta. rewrite E. cbn [bind]. rewrite A.
    assert (Row : forall i, i < nrow D -> rowl F i = map (fun p => XFin (effective top (at2 D i p) + s)) (seq 0 (ncol D))).
    { intros i Hi. unfold rowl. rewrite B. apply map_ext_in. intros j Hj. apply in_seq in Hj. apply H; [exact Hi|lia]. }
    split.
    - intros C Hy. destruct ys as [|y ys]; [congruence|]. destruct (nrow D) as [|n] eqn:En; [lia|]. cbn [seq mapM]. rewrite Row by lia.
      destruct (row_run_f wf h (fun p => effective top (at2 D 0 p) + s)%R (ncol D) K (f 0 y) HK) as (R1 & _); [apply HL; [lia|now left]|exact Hw|].
      now rewrite (R1 C).
    - intros C.
      assert (G : forall i y, i < nrow D -> In y ys -> exists c nb, knn_row_f xsum argpart argsort wf K (rowl F i) (f i y) = Ok c /\
        nearest_positions (fun p => effective top (at2 D i p)) (ncol D) K nb /\
        winner (fun p => h (effective top (at2 D i p) + s)%R) (fun p => nth p (f i y) 0%Z) (ncol D) nb c).
      { intros i y Hi Hy. rewrite Row by exact Hi.
        destruct (row_run_f wf h (fun p => effective top (at2 D i p) + s)%R (ncol D) K (f i y) HK) as (_ & R2); [now apply HL|exact Hw|].
        destruct (R2 C) as (c & nb & Ec & NP & El). exists c, nb. split; [exact Ec|]. split; [exact (nearest_shift _ _ _ _ _ NP)|exact El]. }
      assert (M : exists pred, mapM (fun i => mapM (fun y => knn_row_f xsum argpart argsort wf K (rowl F i) (f i y)) ys) (seq 0 (nrow D)) = Ok pred).
      { apply mapM_ok_iff. intros i Hi. apply in_seq in Hi. apply mapM_ok_iff. intros y Hy. destruct (G i y ltac:(lia) Hy) as (c & _ & Ec & _). eauto. }
      destruct M as (pred & M). exists pred. split; [exact M|].
      destruct (mapM_ok_nth _ _ _ [] M) as (L & Hn). rewrite seq_length in L, Hn. split; [exact L|]. exists top, s. split; [exact T|]. split; [exact S|].
      intros i Hi. specialize (Hn i 0 Hi). rewrite seq_nth in Hn by exact Hi. cbn [Nat.add] in Hn.
      destruct (mapM_ok_nth _ _ _ 0%Z Hn) as (L2 & Ho). split; [exact L2|]. intros o Hoo. specialize (Ho o [] Hoo).
      destruct (G i (nth o ys []) Hi (nth_In _ _ Hoo)) as (c & nb & Ec & NP & El). exists nb. split; [exact NP|]. rewrite Ec in Ho. injection Ho as <-. exact El.
  Qed.

  (** ** (1) fixed vantage points *)
  Theorem C204_fixed : forall wf h kw (D : arr2 xr) ys, let K := match kw with Some k => k | None => 5 end in
    pointwise wf h -> 1 <= K -> 0 < nrow D -> 0 < ncol D -> (forall y, In y ys -> length y = ncol D) ->
    (ncol D < K -> ys <> [] -> predict_fixed_f xsum argpart argsort wf kw D ys = Raise ValueError) /\
    (K <= ncol D -> exists pred, predict_fixed_f xsum argpart argsort wf kw D ys = Ok pred /\
       function_rule h K (fun o _ p => nth p (nth o ys []) 0%Z) (length ys) D pred).
  Proof. intros wf h kw D ys K Hw HK Hr Hc HL. apply (predict_run_f wf h K D (fun _ y => y) ys); auto. Qed.

  (** ** (2) candidates of an index *)
  Theorem C204_index : forall wf h K (D : arr2 xr) ind ys,
    pointwise wf h -> 1 <= K -> 0 < nrow D -> 0 < ncol D -> (forall i, i < nrow D -> length (ind i) = ncol D) ->
    (ncol D < K -> ys <> [] -> predict_index_f xsum argpart argsort wf K D ind ys = Raise ValueError) /\
    (K <= ncol D -> exists pred, predict_index_f xsum argpart argsort wf K D ind ys = Ok pred /\
       function_rule h K (fun o i p => nth p (map (fun a => nth a (nth o ys []) 0%Z) (ind i)) 0%Z) (length ys) D pred).
  Proof.
    intros wf h K D ind ys Hw HK Hr Hc HL. apply (predict_run_f wf h K D (fun i y => map (fun a => nth a y 0%Z) (ind i)) ys); auto.
    intros i y Hi _. rewrite map_length. auto.
  Qed.

  (** ** (3) an error of the function is the error of predict *)
  Theorem C204_error : forall wf e K (D : arr2 xr) ind ys,
    (forall l, wf l = Raise e) -> 1 <= K <= ncol D -> 0 < nrow D -> ys <> [] ->
    predict_index_f xsum argpart argsort wf K D ind ys = Raise e /\ predict_fixed_f xsum argpart argsort wf (Some K) D ys = Raise e.
  Proof.
    intros wf e K D ind ys Hw HK Hr Hy. destruct (finite_dists_shift D Hr ltac:(lia)) as (F & top & s & E & A & B & T & S & H). unfold predict_index_f, predict_fixed_f. rewrite E. cbn [bind]. rewrite A.
    destruct ys as [|y ys]; [congruence|]. destruct (nrow D) as [|n] eqn:En; [lia|]. cbn [seq mapM].
    assert (Row : rowl F 0 = map (fun p => XFin (effective top (at2 D 0 p) + s)) (seq 0 (ncol D))).
    { unfold rowl. rewrite B. apply map_ext_in. intros j Hj. apply in_seq in Hj. apply H; lia. }
    unfold knn_row_f. rewrite Row, (row_guard (fun p => effective top (at2 D 0 p) + s)%R (ncol D) K) by lia.
    destruct (Nat.ltb_spec (ncol D) K); [lia|]. cbn [guard bind]. rewrite !Hw. split; reflexivity.
  Qed.

  (** ** (4) the same positive weight for all is uniform weighting *)
  Lemma total_scale a lab nb c : total (fun _ => a) lab nb c = (a * total (fun _ => 1%R) lab nb c)%R.
  Proof. induction nb as [|p nb IH]; [cbn; lra|]. rewrite !total_cons, IH. destruct (lab p =? c)%Z; lra. Qed.
  Lemma row_constant wf a (g : nat -> R) n K labels : 1 <= K -> length labels = n -> (0 < a)%R -> pointwise wf (fun _ => a) ->
    let row := map (fun p => XFin (g p)) (seq 0 n) in
    knn_row_f xsum argpart argsort wf K row labels = knn_row_w xsum argpart argsort WUniform K row labels.
  Proof.
    intros HK HL Ha Hw row. unfold knn_row_f, knn_row_w. unfold row. rewrite (row_guard g n K HK). fold row.
    destruct (Nat.ltb_spec n K); [reflexivity|]. cbn [guard bind]. destruct (voters_nearest g n K HK H) as (NP & Ev). fold row in NP, Ev.
    change (take 0 (firstn K (argpart row [K - 1])) _) with (voters K row). rewrite Ev, Hw, map_map. cbn [bind]. f_equal.
    set (nb := voters K row) in *. set (lab := fun p => nth p labels 0%Z).
    assert (Hn : nb <> []) by (intros Q; destruct NP as (Ln & _); rewrite Q in Ln; cbn in Ln; lia).
    assert (M : elected_by_weight (fun _ => 1%R) lab nb (mode (map lab nb))) by (apply elected_one, mode_elected; intros Q; apply map_eq_nil in Q; contradiction).
    pose proof (weighted_mode_elected (hd 0%Z (unique_labels labels)) (fun _ => a) lab nb) as W.
    destruct W as (W1 & W2); [intros; lra|destruct nb as [|p nb']; [congruence|exists p; split; [now left|exact Ha]]|].
    destruct M as (M1 & M2). destruct (W2 _ M1) as (A1 & A2), (M2 _ W1) as (B1 & B2). rewrite !(total_scale a) in A1, A2.
    assert (Q : total (fun _ => 1%R) lab nb (mode (map lab nb)) = total (fun _ => 1%R) lab nb (weighted_mode xsum (hd 0%Z (unique_labels labels)) (map lab nb) (map (fun _ => XFin a) nb))).
    { apply Rle_antisym; [|exact B1]. apply (Rmult_le_reg_l a); assumption. }
    apply Z.le_antisymm; [apply A2; now rewrite Q|apply B2; now rewrite Q].
  Qed.
  Lemma mapM_same {X Y : Type} (f f' : X -> result Y) l : (forall x, In x l -> f x = f' x) -> mapM f l = mapM f' l.
  Proof. induction l as [|x l IH]; intros Q; [reflexivity|]. cbn [mapM]. rewrite Q by now left. rewrite IH; [reflexivity|]. intros z Hz. apply Q. now right. Qed.
  Lemma run_constant wf a K (D : arr2 xr) (f : nat -> list Z -> list Z) ys : pointwise wf (fun _ => a) -> (0 < a)%R -> 1 <= K -> 0 < nrow D -> 0 < ncol D ->
    (forall i y, i < nrow D -> In y ys -> length (f i y) = ncol D) ->
    bind (finite_dists D) (fun F => mapM (fun i => mapM (fun y => knn_row_f xsum argpart argsort wf K (rowl F i) (f i y)) ys) (seq 0 (nrow F))) =
    bind (finite_dists D) (fun F => mapM (fun i => mapM (fun y => knn_row_w xsum argpart argsort WUniform K (rowl F i) (f i y)) ys) (seq 0 (nrow F))).
  Proof.
    intros Hw Ha HK Hr Hc HL. destruct (finite_dists_shift D Hr Hc) as (F & top & s & E & A & B & T & S & H). rewrite E. cbn [bind]. rewrite A.
    apply mapM_same. intros i Hi. apply in_seq in Hi. apply mapM_same. intros y Hy.
    assert (Row : rowl F i = map (fun p => XFin (effective top (at2 D i p) + s)) (seq 0 (ncol D))).
    { unfold rowl. rewrite B. apply map_ext_in. intros j Hj. apply in_seq in Hj. apply H; lia. }
    rewrite Row. apply (row_constant wf a (fun p => effective top (at2 D i p) + s)%R); auto. apply HL; [lia|exact Hy].
  Qed.
  Theorem C204_constant : forall wf a (D : arr2 xr) ys, pointwise wf (fun _ => a) -> (0 < a)%R -> 0 < nrow D -> 0 < ncol D ->
    (forall kw, kw <> Some 0 -> (forall y, In y ys -> length y = ncol D) ->
       predict_fixed_f xsum argpart argsort wf kw D ys = predict_fixed_w xsum argpart argsort WUniform kw D ys) /\
    (forall K ind, 1 <= K -> (forall i, i < nrow D -> length (ind i) = ncol D) ->
       predict_index_f xsum argpart argsort wf K D ind ys = predict_index_w xsum argpart argsort WUniform K D ind ys).
  Proof.
    intros wf a D ys Hw Ha Hr Hc. split.
    - intros kw Hk HL. apply (run_constant wf a _ D (fun _ y => y)); auto. destruct kw as [[|k]|]; [congruence|lia|lia].
    - intros K ind HK HL. apply (run_constant wf a K D (fun i y => map (fun z => nth z y 0%Z) (ind i))); auto. intros i y Hi _. rewrite map_length. auto.
  Qed.

  (** ** (5) without positive weights the distances have no influence *)
  Lemma total_nonpos wt lab nb c : (forall p, (wt p <= 0)%R) -> (total wt lab nb c <= 0)%R.
  Proof. intros H. induction nb as [|p nb IH]; [cbn; lra|]. rewrite total_cons. specialize (H p). destruct (lab p =? c)%Z; lra. Qed.
  Theorem C204_no_positive_weight : forall wf h kw (D : arr2 xr) ys, let K := match kw with Some k => k | None => 5 end in
    pointwise wf h -> (forall r, (h r <= 0)%R) -> 1 <= K -> K <= ncol D -> 0 < nrow D -> (forall y, In y ys -> length y = ncol D) ->
    exists pred, predict_fixed_f xsum argpart argsort wf kw D ys = Ok pred /\ length pred = nrow D /\
      forall i o, i < nrow D -> o < length ys -> smallest_label (fun p => nth p (nth o ys []) 0%Z) (ncol D) (nth o (nth i pred []) 0%Z).
  Proof.
    intros wf h kw D ys K Hw Hh HK HC Hr HL. destruct (C204_fixed wf h kw D ys Hw HK Hr ltac:(fold K; lia) HL) as (_ & R).
    destruct (R HC) as (pred & E & L & top & s & _ & _ & Q). exists pred. split; [exact E|]. split; [exact L|]. intros i o Hi Ho.
    destruct (Q i Hi) as (_ & Q2). destruct (Q2 o Ho) as (nb & _ & [(_ & P) | (_ & Sm)]); [|exact Sm]. exfalso.
    pose proof (total_nonpos (fun p => h (effective top (at2 D i p) + s)%R) (fun p => nth p (nth o ys []) 0%Z) nb (nth o (nth i pred []) 0%Z) (fun p => Hh _)) as N. cbv beta in N, P. lra.
  Qed.

  (** ** (6) only the ratios of the weights matter *)
  Lemma total_times a wt lab nb c : total (fun p => a * wt p)%R lab nb c = (a * total wt lab nb c)%R.
  Proof. induction nb as [|p nb IH]; [cbn; lra|]. rewrite !total_cons, IH. destruct (lab p =? c)%Z; lra. Qed.
  Lemma winner_scaled a wt lab n nb c c' : (0 < a)%R -> winner wt lab n nb c -> winner (fun p => a * wt p)%R lab n nb c' -> c = c'.
  Proof.
    intros Ha W W'. assert (Le : forall x y, (a * x <= a * y)%R -> (x <= y)%R) by (intros x y; apply Rmult_le_reg_l; exact Ha).
    destruct W as [((I & M) & P) | (Z0 & ((p & Hp & Ep) & Sm))], W' as [((I' & M') & P') | (Z0' & ((p' & Hp' & Ep') & Sm'))].
    - destruct (M _ I') as (A1 & A2), (M' _ I) as (B1 & B2). rewrite !total_times in B1, B2. apply Le in B1. assert (Q : total wt lab nb c' = total wt lab nb c) by lra.
      apply Z.le_antisymm; [now apply A2|apply B2; now rewrite Q].
    - exfalso. specialize (Z0' c I). rewrite total_times in Z0'. pose proof (Rmult_lt_0_compat _ _ Ha P). lra.
    - exfalso. specialize (Z0 c' I'). rewrite total_times in P'. assert (a * total wt lab nb c' <= a * 0)%R by (apply Rmult_le_compat_l; lra). lra.
    - apply Z.le_antisymm; [rewrite <- Ep'; auto|rewrite <- Ep; auto].
  Qed.
  Lemma row_scaled wf wf' h a (g : nat -> R) n K labels : 1 <= K -> length labels = n -> (0 < a)%R -> pointwise wf h -> pointwise wf' (fun r => a * h r)%R ->
    let row := map (fun p => XFin (g p)) (seq 0 n) in
    knn_row_f xsum argpart argsort wf K row labels = knn_row_f xsum argpart argsort wf' K row labels.
  Proof.
    intros HK HL Ha Hw Hw' row. unfold knn_row_f. unfold row. rewrite (row_guard g n K HK). fold row.
    destruct (Nat.ltb_spec n K); [reflexivity|]. cbn [guard bind]. destruct (voters_nearest g n K HK H) as (NP & Ev). fold row in NP, Ev.
    change (take 0 (firstn K (argpart row [K - 1])) _) with (voters K row). rewrite Ev, Hw, Hw', !map_map. cbn [bind]. f_equal.
    apply (winner_scaled a (fun p => h (g p)) (fun p => nth p labels 0%Z) n (voters K row)); [exact Ha| |].
    - apply (weighted_mode_winner (fun p => h (g p))); [exact HL|lia].
    - apply (weighted_mode_winner (fun p => a * h (g p))%R); [exact HL|lia].
  Qed.
  Theorem C204_ratios : forall wf wf' h a (D : arr2 xr) ys, pointwise wf h -> pointwise wf' (fun r => a * h r)%R -> (0 < a)%R -> 0 < nrow D -> 0 < ncol D ->
    (forall kw, kw <> Some 0 -> (forall y, In y ys -> length y = ncol D) ->
       predict_fixed_f xsum argpart argsort wf kw D ys = predict_fixed_f xsum argpart argsort wf' kw D ys) /\
    (forall K ind, 1 <= K -> (forall i, i < nrow D -> length (ind i) = ncol D) ->
       predict_index_f xsum argpart argsort wf K D ind ys = predict_index_f xsum argpart argsort wf' K D ind ys).
  Proof.
    intros wf wf' h a D ys Hw Hw' Ha Hr Hc. unfold predict_fixed_f, predict_index_f. destruct (finite_dists_shift D Hr Hc) as (F & top & s & E & A & B & T & S & H). rewrite E. cbn [bind]. rewrite A.
    assert (Row : forall i, i < nrow D -> rowl F i = map (fun p => XFin (effective top (at2 D i p) + s)) (seq 0 (ncol D))).
    { intros i Hi. unfold rowl. rewrite B. apply map_ext_in. intros j Hj. apply in_seq in Hj. apply H; [exact Hi|lia]. }
    split; [intros kw Hk HL|intros K ind HK HL]; apply mapM_same; intros i Hi; apply in_seq in Hi; apply mapM_same; intros y Hy; rewrite Row by lia;
      apply (row_scaled wf wf' h a (fun p => effective top (at2 D i p) + s)%R); auto.
    - destruct kw as [[|k]|]; [congruence|lia|lia].
    - rewrite map_length. apply HL. lia.
  Qed.

  (** ** (7) the function 1/d is the weighting 'distance' as long as all distances are positive *)
  Definition inverse (l : list xr) : result (list xr) := Ok (map (fun v => ndiv n1 v) l).
  Lemma inv_weights_pos (l : list R) : (forall r, In r l -> (0 < r)%R) -> inv_weights (map XFin l) = map (fun v => ndiv n1 v) (map XFin l).
  Proof.
    intros H. unfold inv_weights. destruct (existsb _ _) eqn:Ex; [|reflexivity]. exfalso. apply existsb_exists in Ex as (x & Ix & Fx).
    rewrite map_map in Ix. apply in_map_iff in Ix as (r & <- & Ir). specialize (H r Ir). revert Fx. cbn. destruct (Req_EM_T r 0); [lra|]. cbn. discriminate.
  Qed.
  Lemma row_inverse (g : nat -> R) n K labels : 1 <= K -> (forall p, p < n -> (0 < g p)%R) ->
    let row := map (fun p => XFin (g p)) (seq 0 n) in
    knn_row_f xsum argpart argsort inverse K row labels = knn_row_w xsum argpart argsort WDistance K row labels.
  Proof.
    intros HK Hg row. unfold knn_row_f, knn_row_w. unfold row. rewrite (row_guard g n K HK). fold row.
    destruct (Nat.ltb_spec n K); [reflexivity|]. cbn [guard bind]. destruct (voters_nearest g n K HK H) as ((_ & _ & Bd & _) & Ev). fold row in Bd, Ev.
    change (take 0 (firstn K (argpart row [K - 1])) _) with (voters K row). rewrite Ev, inv_weights_pos; [reflexivity|].
    intros r Hr. apply in_map_iff in Hr as (p & <- & Hp). apply Hg, Bd, Hp.
  Qed.
  Theorem C204_inverse : forall (D : arr2 xr) ys, 0 < nrow D -> 0 < ncol D ->
    (forall i j, i < nrow D -> j < ncol D -> exists r, at2 D i j = XFin r /\ (0 < r)%R) ->
    (forall kw, kw <> Some 0 ->
       predict_fixed_f xsum argpart argsort inverse kw D ys = predict_fixed_w xsum argpart argsort WDistance kw D ys) /\
    (forall K ind, 1 <= K ->
       predict_index_f xsum argpart argsort inverse K D ind ys = predict_index_w xsum argpart argsort WDistance K D ind ys).
  Proof.
    intros D ys Hr Hc Pos. unfold predict_fixed_f, predict_index_f, predict_fixed_w, predict_index_w.
    destruct (finite_dists_shift D Hr Hc) as (F & top & s & E & A & B & T & S & H). rewrite E. cbn [bind]. rewrite A.
    assert (S0 : s = 0%R). { apply (shift_zero D top s); [|exact S]. intros i j Hi Hj. destruct (Pos i j Hi Hj) as (r & Er & Hr0). exists r. split; [exact Er|lra]. } subst s.
    assert (Row : forall i, i < nrow D -> rowl F i = map (fun p => XFin (effective top (at2 D i p) + 0)) (seq 0 (ncol D))).
    { intros i Hi. unfold rowl. rewrite B. apply map_ext_in. intros j Hj. apply in_seq in Hj. apply H; [exact Hi|lia]. }
    split; [intros kw Hk|intros K ind HK]; apply mapM_same; intros i Hi; apply in_seq in Hi; apply mapM_same; intros y Hy; rewrite Row by lia;
      apply (row_inverse (fun p => effective top (at2 D i p) + 0)%R); auto.
    - destruct kw as [[|k]|]; [congruence|lia|lia].
    - intros p Hp. destruct (Pos i p ltac:(lia) Hp) as (r & -> & Hr0). cbn. lra.
    - intros p Hp. destruct (Pos i p ltac:(lia) Hp) as (r & -> & Hr0). cbn. lra.
  Qed.
End Run.

(** ** The hypotheses can be met: the weights 1 - d, negative for far voters *)
Example C204_case : pointwise (fun l => Ok (map (fun v => nsub n1 v) l)) (fun r => 1 - r)%R /\
  pointwise (fun l => Ok (map (fun _ => XFin 2) l)) (fun _ => 2%R) /\
  winner (fun p => 1 - INR p)%R (fun p => nth p [5; 3; 3]%Z 0%Z) 3 [0; 1; 2] 5%Z /\
  winner (fun p => 1 - INR (p + 1))%R (fun p => nth p [5; 3; 3]%Z 0%Z) 3 [0; 1] 3%Z.
Proof.
  split; [|split; [|split]].
  - intros l. f_equal. rewrite map_map. apply map_ext. intros r. reflexivity.
  - intros l. now rewrite map_map.
  - left. split; [split; [now left|]|].
    + intros c' [<-|[<-|[<-|[]]]]; cbn; (split; [lra|intros; try lia; lra]).
    + cbn. lra.
  - right. split.
    + intros c' [<-|[<-|[]]]; cbn; lra.
    + split; [exists 1; split; [lia|reflexivity]|]. intros p Hp. destruct p as [|[|[|p]]]; cbn; lia.
Qed.

Print Assumptions C204_fixed.
Print Assumptions C204_index.
Print Assumptions C204_error.
Print Assumptions C204_constant.
Print Assumptions C204_no_positive_weight.
Print Assumptions C204_ratios.
Print Assumptions C204_inverse.
