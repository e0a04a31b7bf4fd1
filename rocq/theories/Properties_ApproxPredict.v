(** Property C75: predictions of approximate hubness reduction. *)
From Coq Require Import ZArith List Arith Lia Bool Permutation Reals Lra.
From Verif Require Import Py Num NumT Arr Sort S_ApproxPredict M_Approx M_ApproxPredict P_Neighbors P_LS P_Approx P_ApproxANN P_ApproxPredict.
Import ListNotations.
Local Open Scope nat_scope.

(** [rule K lab D pred]: for some reading of the distances that are not finite,
    the prediction of every row is elected by the labels of K nearest columns *)
Definition rule (K : nat) (lab : nat -> nat -> Z) (D : arr2 xr) (pred : list Z) : Prop :=
  length pred = nrow D /\ exists top, largest_finite D top /\
  forall i, i < nrow D -> exists nb,
    nearest_positions (fun p => effective top (at2 D i p)) (ncol D) K nb /\
    elected_label (map (lab i) nb) (nth i pred 0%Z).

Lemma row_run argpart K (D F : arr2 xr) top s lab i : argpart_ok argpart -> 1 <= K -> ncol F = ncol D ->
  length lab = ncol D ->
  (forall j, j < ncol D -> at2 F i j = XFin (effective top (at2 D i j) + s)%R) ->
  (ncol D < K -> knn_predict_row argpart K (rowl F i) lab = Raise ValueError) /\
  (K <= ncol D -> exists c nb, knn_predict_row argpart K (rowl F i) lab = Ok c /\
     nearest_positions (fun p => effective top (at2 D i p)) (ncol D) K nb /\ elected_label (map (fun p => nth p lab 0%Z) nb) c).
Proof.
  intros Hap HK HC HL HF.
  assert (E : rowl F i = map (fun l => XFin ((fun p => effective top (at2 D i p) + s)%R l)) (seq 0 (ncol D))).
  { unfold rowl. rewrite HC. apply map_ext_in. intros j Hj. apply in_seq in Hj. apply HF. lia. }
  unfold knn_predict_row. rewrite E. clear E.
  assert (Fi : existsb (fun v => negb (nisfin v)) (map (fun l => XFin ((fun p => effective top (at2 D i p) + s)%R l)) (seq 0 (ncol D))) = false).
  { destruct (existsb _ _) eqn:Ex; [|reflexivity]. apply existsb_exists in Ex as (x & Ix & Fx). apply in_map_iff in Ix as (l & <- & _). discriminate. }
  rewrite Fi. replace (K =? 0) with false by (symmetry; apply Nat.eqb_neq; lia). rewrite map_length, seq_length. cbn [orb]. split.
  - intros H. unfold guard. destruct (Nat.ltb_spec (ncol D) K); [reflexivity|lia].
  - intros H. unfold guard. destruct (Nat.ltb_spec (ncol D) K); [lia|]. cbn [bind].
    set (row := map _ (seq 0 (ncol D))). set (p := argpart row [K - 1]).
    assert (NP : nearest_positions (fun p => (effective top (at2 D i p) + s)%R) (ncol D) K (firstn K p)).
    { apply argpart_nearest; [lia|]. apply Hap. intros z [<-|[]]. unfold row. rewrite map_length, seq_length. lia. }
    eexists. exists (firstn K p). split; [reflexivity|]. split; [exact (nearest_shift _ _ _ _ _ NP)|]. apply mode_elected.
    intros C. apply map_eq_nil in C. destruct NP as (L & _). rewrite C in L. cbn in L. lia.
Qed.
Lemma predict_run argpart K (D : arr2 xr) (labs : nat -> list Z) : argpart_ok argpart -> 1 <= K -> 0 < nrow D -> 0 < ncol D ->
  (forall i, i < nrow D -> length (labs i) = ncol D) ->
  let r := bind (finite_dists D) (fun F => mapM (fun i => knn_predict_row argpart K (rowl F i) (labs i)) (seq 0 (nrow F))) in
  (ncol D < K -> r = Raise ValueError) /\
  (K <= ncol D -> exists pred, r = Ok pred /\ rule K (fun i p => nth p (labs i) 0%Z) D pred).
Proof.
  intros Hap HK Hr Hc HL. destruct (finite_dists_xr D Hr Hc) as (F & top & s & E & A & B & T & H). cbv zeta. rewrite E. cbn [bind]. rewrite A. split.
  - intros C. destruct (nrow D) as [|n] eqn:En; [lia|]. cbn [seq mapM].
    destruct (row_run argpart K D F top s (labs 0) 0 Hap HK B) as (R1 & _); [apply HL; lia|intros j Hj; apply H; lia|]. now rewrite (R1 C).
  - intros C.
    assert (G : forall i, i < nrow D -> exists c nb, knn_predict_row argpart K (rowl F i) (labs i) = Ok c /\
     nearest_positions (fun p => effective top (at2 D i p)) (ncol D) K nb /\ elected_label (map (fun p => nth p (labs i) 0%Z) nb) c).
    { intros i Hi. destruct (row_run argpart K D F top s (labs i) i Hap HK B) as (_ & R2); [now apply HL|intros j Hj; now apply H|]. exact (R2 C). }
    assert (M : exists pred, mapM (fun i => knn_predict_row argpart K (rowl F i) (labs i)) (seq 0 (nrow D)) = Ok pred).
    { apply mapM_ok_iff. intros i Hi. apply in_seq in Hi. destruct (G i ltac:(lia)) as (c & _ & Ec & _). eauto. }
    destruct M as (pred & M). exists pred. split; [exact M|].
    destruct (mapM_ok_nth _ _ _ 0%Z M) as (L & Hn). rewrite seq_length in L, Hn. split; [exact L|]. exists top. split; [exact T|].
    intros i Hi. specialize (Hn i 0 Hi). rewrite seq_nth in Hn by exact Hi. cbn [Nat.add] in Hn.
    destruct (G i Hi) as (c & nb & Ec & NP & El). exists nb. split; [exact NP|]. rewrite Ec in Hn. injection Hn as <-. exact El.
Qed.

(** Fixed vantage points: knn__n_neighbors (5 by default) nearest vantage points
    vote, for every legal np.argpartition. *)
Theorem C75_fixed :
  forall argpart kw (D : arr2 xr) y,
    let K := match kw with Some k => k | None => 5 end in
    argpart_ok argpart -> 1 <= K -> 0 < nrow D -> 0 < ncol D -> length y = ncol D ->
    (ncol D < K -> predict_fixed argpart kw D y = Raise ValueError) /\
    (K <= ncol D -> exists pred, predict_fixed argpart kw D y = Ok pred /\ rule K (fun _ p => nth p y 0%Z) D pred).
Proof.
  intros argpart kw D y K Hap HK Hr Hc HL. apply (predict_run argpart K D (fun _ => y)); auto.
Qed.

(** Candidates of an index: n_neighbors of them vote; repeated candidates vote
    repeatedly.  DEFECT: the value of knn__n_neighbors has no influence. *)
Theorem C75_index :
  forall argpart kw K (D : arr2 xr) ind y,
    argpart_ok argpart -> 1 <= K -> 0 < nrow D -> 0 < ncol D -> (forall i, i < nrow D -> length (ind i) = ncol D) ->
    (ncol D < K -> predict_index argpart kw K D ind y = Raise ValueError) /\
    (K <= ncol D -> exists pred, predict_index argpart kw K D ind y = Ok pred /\
       rule K (fun i p => nth (nth p (ind i) 0) y 0%Z) D pred).
Proof.
  intros argpart kw K D ind y Hap HK Hr Hc HL.
  destruct (predict_run argpart K D (fun i => map (fun a => nth a y 0%Z) (ind i)) Hap HK Hr Hc) as (A & B).
  { intros i Hi. rewrite map_length. auto. }
  split; [exact A|]. intros C. destruct (B C) as (pred & E & L & top & T & H). exists pred. split; [exact E|]. split; [exact L|]. exists top. split; [exact T|].
  intros i Hi. destruct (H i Hi) as (nb & NP & El). exists nb. split; [exact NP|].
  rewrite (map_ext_in _ (fun p => nth (nth p (ind i) 0) y 0%Z)) in El; [exact El|].
  intros p Hp. destruct NP as (_ & _ & Bd & _). specialize (Bd p Hp).
  rewrite (nth_indep _ 0%Z (nth 0 y 0%Z)) by (rewrite map_length, HL; auto). apply (map_nth (fun a => nth a y 0%Z)).
Qed.

(** witness: for every n_neighbors >= 3 there is a query whose nearest candidate
    has label 0, but the prediction is 1 although knn__n_neighbors = 1. *)
Theorem C75_index_ignores_keyword :
  forall argpart K, argpart_ok argpart -> 3 <= K ->
    let D := Arr2 1 K (fun _ j => XFin (INR j)) in
    predict_index argpart (Some 1) K D (fun _ => seq 0 K) (0%Z :: repeat 1%Z (K - 1)) = Ok [1%Z].
Proof.
  intros argpart K Hap HK D.
  destruct (C75_index argpart (Some 1) K D (fun _ => seq 0 K) (0%Z :: repeat 1%Z (K - 1)) Hap) as (_ & H); try (cbn; lia).
  { intros i _. cbn. apply seq_length. }
  destruct (H (Nat.le_refl K)) as (pred & E & L & top & _ & R). rewrite E. f_equal. cbn in L.
  destruct pred as [|c [|]]; try discriminate. f_equal.
  destruct (R 0 (Nat.lt_0_1)) as (nb & (Ln & ND & Bd & _) & El). cbn [nth] in El.
  set (lab := fun p => nth (nth p (seq 0 K) 0) (0%Z :: repeat 1%Z (K - 1)) 0%Z) in El.
  assert (Lab : forall p, p < K -> lab p = if p =? 0 then 0%Z else 1%Z).
  { intros p Hp. unfold lab. rewrite seq_nth by exact Hp. cbn [Nat.add]. destruct p as [|p]; [reflexivity|]. cbn [nth Nat.eqb].
    destruct (nth_in_or_default p (repeat 1%Z (K - 1)) 0%Z) as [I|I]; [now apply repeat_spec in I|].
    assert (I' : In (nth p (repeat 1%Z (K - 1)) 0%Z) (repeat 1%Z (K - 1))) by (apply nth_In; rewrite repeat_length; lia). now apply repeat_spec in I'. }
  assert (P : Permutation nb (seq 0 K)).
  { apply NoDup_Permutation_bis; [exact ND|rewrite seq_length, Ln; reflexivity|]. intros x Hx. apply in_seq. specialize (Bd x Hx). cbn in Bd. lia. }
  apply (elected_perm _ _ _ (Permutation_map lab P)) in El.
  assert (El' : elected_label (0%Z :: repeat 1%Z (K - 1)) c).
  { replace (map lab (seq 0 K)) with (0%Z :: repeat 1%Z (K - 1)) in El; [exact El|]. destruct K as [|k]; [lia|]. cbn [seq map Nat.sub]. rewrite Lab by lia. cbn [Nat.eqb]. f_equal.
    rewrite Nat.sub_0_r. assert (G : forall n s, 1 <= s -> s + n <= S k -> repeat 1%Z n = map lab (seq s n)).
    { induction n as [|n IH]; intros s Hs Hn; [reflexivity|]. cbn [repeat seq map]. rewrite Lab by lia. destruct (Nat.eqb_spec s 0); [lia|]. f_equal. apply IH; lia. }
    apply G; lia. }
  destruct El' as (I & M & _). destruct I as [<-|I]; [|now apply repeat_spec in I].
  specialize (M 1%Z). unfold votes in M. cbn [count_occ] in M. destruct (Z.eq_dec 0 1); [discriminate|]. destruct (Z.eq_dec 0 0); [|contradiction].
  assert (C1 : forall n, count_occ Z.eq_dec (repeat 1%Z n) 1%Z = n /\ count_occ Z.eq_dec (repeat 1%Z n) 0%Z = 0).
  { intros u. induction u as [|u An]; [auto|]. destruct An as (A1 & A2). cbn. destruct (Z.eq_dec 1 1); [|contradiction]. destruct (Z.eq_dec 1 0); [discriminate|]. auto. }
  destruct (C1 (K - 1)) as (O1 & Z0). rewrite O1, Z0 in M. lia.
Qed.

(** DEFECT: padding votes.  If the index finds only m candidates for query i, the
    last being [b], the padding repeats b; with n_samples = n_neighbors, if m is
    at most half of that, rounded up, the label of the farthest candidate found, b,
    wins whatever the others are. *)
Theorem C75_padding_wins :
  forall argpart kw K (D : arr2 xr) ind y pred i m b,
    argpart_ok argpart -> 1 <= K -> ncol D = K -> (forall i, i < nrow D -> length (ind i) = ncol D) ->
    predict_index argpart kw K D ind y = Ok pred -> i < nrow D ->
    1 <= m <= K -> (forall p, m - 1 <= p < K -> nth p (ind i) 0 = b) -> 2 * (m - 1) < K ->
    nth i pred 0%Z = nth b y 0%Z.
Proof.
  intros argpart kw K D ind y pred i m b Hap HK Hc HL E Hi Hm Hb H2.
  destruct (C75_index argpart kw K D ind y Hap HK) as (_ & H); try lia; [exact HL|].
  destruct (H ltac:(lia)) as (pred' & E' & L & top & _ & R). assert (pred' = pred) by congruence. subst pred'. clear E' E H.
  destruct (R i Hi) as (nb & (Ln & ND & Bd & _) & El). set (lab := fun p => nth (nth p (ind i) 0) y 0%Z) in El.
  assert (P : Permutation nb (seq 0 K)).
  { apply NoDup_Permutation_bis; [exact ND|rewrite seq_length, Ln; reflexivity|]. intros x Hx. apply in_seq. specialize (Bd x Hx). lia. }
  apply (elected_perm _ _ _ (Permutation_map lab P)) in El. destruct El as (_ & M & _). set (c := nth i pred 0%Z) in *. set (w := nth b y 0%Z).
  destruct (Z.eq_dec c w) as [|Ne]; [assumption|exfalso]. specialize (M w). unfold votes in M.
  replace K with ((m - 1) + (K - (m - 1))) in M by lia. rewrite seq_app, map_app, !count_occ_app in M. cbn [Nat.add] in M.
  assert (W : map lab (seq (m - 1) (K - (m - 1))) = repeat w (K - (m - 1))).
  { assert (G : forall n s, m - 1 <= s -> s + n <= K -> map lab (seq s n) = repeat w n).
    { induction n as [|n IH]; intros s Hs Hn; [reflexivity|]. cbn [repeat seq map]. rewrite IH by lia. f_equal. unfold lab. now rewrite Hb by lia. }
    apply G; lia. }
  rewrite W in M.
  assert (C1 : forall n, count_occ Z.eq_dec (repeat w n) w = n /\ count_occ Z.eq_dec (repeat w n) c = 0).
  { intros u. induction u as [|u An]; [auto|]. destruct An as (A1 & A2). cbn. destruct (Z.eq_dec w w); [|contradiction]. destruct (Z.eq_dec w c); [congruence|]. auto. }
  destruct (C1 (K - (m - 1))) as (C2 & C3). rewrite C2, C3 in M.
  pose proof (count_occ_bound Z.eq_dec c (map lab (seq 0 (m - 1)))) as Bc. rewrite map_length, seq_length in Bc. lia.
Qed.

(** If no two candidates of a query have the same effective distance, the
    prediction does not depend on np.argpartition. *)
Theorem C75_deterministic :
  forall argpart argpart' kw kw' K (D : arr2 xr) ind y pred pred',
    argpart_ok argpart -> argpart_ok argpart' -> 1 <= K <= ncol D -> (forall i, i < nrow D -> length (ind i) = ncol D) ->
    (forall i p q, i < nrow D -> p < ncol D -> q < ncol D -> p <> q -> at2 D i p <> at2 D i q) ->
    (forall i p, i < nrow D -> p < ncol D -> nisfin (at2 D i p) = true) ->
    predict_index argpart kw K D ind y = Ok pred -> predict_index argpart' kw' K D ind y = Ok pred' -> pred = pred'.
Proof.
  intros ap ap' kw kw' K D ind y pred pred' H1 H2 HK HL Dis Fin E E'.
  destruct (Nat.eq_dec (nrow D) 0) as [Z0|Z0].
  { unfold predict_index in E, E'. destruct (finite_dists D) as [F|e] eqn:EF; [|discriminate]. cbn [bind] in E, E'. exfalso.
    unfold finite_dists in EF. rewrite Z0 in EF. cbn in EF. discriminate. }
  destruct (C75_index ap kw K D ind y H1) as (_ & R); try lia; [exact HL|]. destruct (R (proj2 HK)) as (p1 & E1 & L1 & t1 & _ & R1).
  destruct (C75_index ap' kw' K D ind y H2) as (_ & R'); try lia; [exact HL|]. destruct (R' (proj2 HK)) as (p2 & E2 & L2 & t2 & _ & R2).
  assert (p1 = pred) by congruence. assert (p2 = pred') by congruence. subst p1 p2.
  apply (nth_ext _ _ 0%Z 0%Z); [congruence|]. intros i Hi. rewrite L1 in Hi.
  destruct (R1 i Hi) as (nb & NP & El). destruct (R2 i Hi) as (nb' & NP' & El').
  assert (Eq : forall t t' p, p < ncol D -> effective t (at2 D i p) = effective t' (at2 D i p)).
  { intros t t' p Hp. specialize (Fin i p Hi Hp). destruct (at2 D i p); cbn in *; congruence. }
  assert (NP2 : nearest_positions (fun p => effective t1 (at2 D i p)) (ncol D) K nb').
  { destruct NP' as (A & B & C & O). repeat split; auto. intros p q Hp Hq Hn. rewrite !(Eq t1 t2) by auto. now apply O. }
  assert (P : Permutation nb nb').
  { apply (nearest_unique (fun p => effective t1 (at2 D i p)) (ncol D) K); auto. intros p q Hp Hq Epq.
    destruct (Nat.eq_dec p q) as [|Ne]; [assumption|exfalso]. apply (Dis i p q Hi Hp Hq Ne).
    pose proof (Fin i p Hi Hp) as F1. pose proof (Fin i q Hi Hq) as F2. destruct (at2 D i p), (at2 D i q); cbn in *; congruence. }
  apply (elected_unique (map (fun p => nth (nth p (ind i) 0) y 0%Z) nb)); [exact El|].
  apply (elected_perm _ _ _ (Permutation_map _ (Permutation_sym P)) El').
Qed.

(** Two queries, three candidates each, one secondary distance infinite. *)
Definition exD : arr2 xr := Arr2 2 3 (fun i j => if (i + j =? 3) then XPInf else XFin (INR (i + j))).
Example ex_C75 : exists pred, predict_index (ref_argpart (V := xr)) None 1 exD (fun _ => [0; 1; 2]) [5; 7; 7]%Z = Ok pred /\
  rule 1 (fun i p => nth (nth p [0; 1; 2] 0) [5; 7; 7]%Z 0%Z) exD pred.
Proof.
  apply (C75_index (ref_argpart (V := xr)) None 1 exD (fun _ => [0; 1; 2]) [5; 7; 7]%Z); try (cbn; lia).
  exact (ref_argpart_ok xr_cmp).
Qed.
Example ex_C75_fixed : exists pred, predict_fixed (ref_argpart (V := xr)) (Some 2) exD [5; 7; 7]%Z = Ok pred /\
  rule 2 (fun _ p => nth p [5; 7; 7]%Z 0%Z) exD pred.
Proof.
  apply (C75_fixed (ref_argpart (V := xr)) (Some 2) exD [5; 7; 7]%Z); try (cbn; lia).
  exact (ref_argpart_ok xr_cmp).
Qed.
(** two candidates found out of three: the second one decides *)
Example ex_C75_padding : let ind (i : nat) := [4; 9; 9] in (forall p, 2 - 1 <= p < 3 -> nth p (ind 0) 0 = 9) /\ 2 * (2 - 1) < 3.
Proof. split; [|lia]. intros [|[|[|p]]] Hp; try lia; reflexivity. Qed.

Print Assumptions C75_fixed.
Print Assumptions C75_index.
Print Assumptions C75_index_ignores_keyword.
Print Assumptions C75_padding_wins.
Print Assumptions C75_deterministic.
