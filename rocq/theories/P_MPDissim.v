(** Binning and the data mass of regions, for every instance of [Num]. *)
From Coq Require Import String.
From Coq Require Import ZArith List Arith Lia Bool Permutation.
From Verif Require Import Py Num Arr Sort Conc M_IO M_SNN M_MPDissim.
Import ListNotations.

(** A predicate that holds on a prefix of a list is determined by its count. *)
Lemma prefix_count {A} (P : A -> bool) (d : A) l :
  (forall a b, a < b -> b < length l -> P (nth b l d) = true -> P (nth a l d) = true) ->
  forall k, k < length l -> P (nth k l d) = (k <? length (filter P l)).
Proof.
  induction l as [|x l IH]; intros H k Hk; [cbn in Hk; lia|].
  assert (H' : forall a b, a < b -> b < length l -> P (nth b l d) = true -> P (nth a l d) = true).
  { intros a b Hab Hb Hp. apply (H (S a) (S b)); cbn; auto; lia. }
  destruct (P x) eqn:E.
  - cbn [filter]. rewrite E. destruct k as [|k]; cbn [nth]; [rewrite E; symmetry; apply Nat.ltb_lt; cbn; lia|].
    rewrite (IH H' k) by (cbn in Hk; lia). cbn [length].
    destruct (Nat.ltb_spec k (length (filter P l))), (Nat.ltb_spec (S k) (S (length (filter P l)))); auto; lia.
  - assert (F : forall j, j < length l -> P (nth j l d) = false).
    { intros j Hj. destruct (P (nth j l d)) eqn:Ej; auto. rewrite <- E. symmetry. exact (H 0 (S j) ltac:(lia) ltac:(cbn; lia) Ej). }
    assert (Z : filter P l = []).
    { clear - F. induction l as [|y l IH]; [reflexivity|]. cbn [filter]. pose proof (F 0 ltac:(cbn; lia)) as F0. cbn [nth] in F0. rewrite F0. apply IH.
      intros j Hj. apply (F (S j)). cbn. lia. }
    cbn [filter]. rewrite E, Z. cbn [length]. destruct k as [|k]; cbn [nth]; [rewrite E; reflexivity|].
    rewrite F by (cbn in Hk; lia). reflexivity.
Qed.

Lemma filter_length_app {A} (P : A -> bool) l1 l2 :
  length (filter P (l1 ++ l2)) = length (filter P l1) + length (filter P l2).
Proof. rewrite filter_app, app_length. reflexivity. Qed.
Lemma filter_all {A} (P : A -> bool) l : (forall x, In x l -> P x = true) -> length (filter P l) = length l.
Proof. induction l as [|x l IH]; intros H; cbn; [reflexivity|]. rewrite (H x) by (now left). cbn. f_equal. apply IH. intros; apply H; now right. Qed.
Lemma filter_none {A} (P : A -> bool) l : (forall x, In x l -> P x = false) -> length (filter P l) = 0.
Proof. induction l as [|x l IH]; intros H; cbn; [reflexivity|]. rewrite (H x) by (now left). apply IH. intros; apply H; now right. Qed.
Lemma filter_len_le {A} (P : A -> bool) l : length (filter P l) <= length l.
Proof. induction l as [|x l IH]; cbn; [lia|]. destruct (P x); cbn; lia. Qed.
Lemma filter_len_ext {A} (P Q : A -> bool) l : (forall x, In x l -> P x = Q x) -> length (filter P l) = length (filter Q l).
Proof. intros H. f_equal. apply filter_ext_in. exact H. Qed.

Lemma hist_fits_iff n h : 0 < n -> hist_fits n h = true <-> length h = n.
Proof.
  intros Hn. unfold hist_fits. rewrite forallb_forall. split.
  - intros H. pose proof (H 0 ltac:(apply in_seq; lia)) as H0. apply orb_true_iff in H0. rewrite !Nat.eqb_eq in H0.
    destruct (Nat.eq_dec n 1) as [->|N1]; [lia|].
    pose proof (H 1 ltac:(apply in_seq; lia)) as H1. apply orb_true_iff in H1. rewrite !Nat.eqb_eq in H1. lia.
  - intros <- b _. rewrite Nat.eqb_refl. reflexivity.
Qed.

Section Bins.
  Context {V : Type} {N : Num V} {toX : V -> xr} (CL : CmpLaws V N toX).

  (** the cell of a value among separators *)
  Definition cellv (seps : list V) (v : V) : nat := length (filter (fun s => negb (nlt v s)) seps).

  (** edges [e0 :: seps ++ [en]]: increasing, without NaN *)
  Record edges_ok (e0 : V) (seps : list V) (en : V) : Prop := {
    eo_nan : forall s, In s (e0 :: seps ++ [en]) -> nisnan s = false;
    eo_lo : forall s, In s (seps ++ [en]) -> nle e0 s = true;
    eo_hi : forall s, In s seps -> nle s en = true;
    eo_sorted : forall a b, a < b -> b < length seps -> nle (nth a seps nnan) (nth b seps nnan) = true }.

  Lemma nle_lt_trans x y z : nle x y = true -> nlt y z = true -> nlt x z = true.
  Proof. rewrite !(cl_le _ _ _ CL), !(cl_lt _ _ _ CL). generalize (toX x), (toX y), (toX z). intros; xr_tac. Qed.
  Lemma nlt_le_trans x y z : nlt x y = true -> nle y z = true -> nlt x z = true.
  Proof. rewrite !(cl_le _ _ _ CL), !(cl_lt _ _ _ CL). generalize (toX x), (toX y), (toX z). intros; xr_tac. Qed.
  Lemma nle_trans x y z : nle x y = true -> nle y z = true -> nle x z = true.
  Proof. rewrite !(cl_le _ _ _ CL). generalize (toX x), (toX y), (toX z). intros; xr_tac. Qed.
  Lemma nle_lt_false x y : nle x y = true -> nlt y x = false.
  Proof. rewrite !(cl_le _ _ _ CL), !(cl_lt _ _ _ CL). generalize (toX x), (toX y). intros; xr_tac. Qed.

  Lemma bin_cell e0 seps en v : edges_ok e0 seps en -> nisnan v = false ->
    mpd_bin (S (length seps)) (e0 :: seps ++ [en]) v = cellv seps v.
  Proof.
    intros [Hn Hlo Hhi Hs] Hv. unfold mpd_bin, cellv. cbn [filter].
    replace (S (length seps) - 1) with (length seps) by lia.
    destruct (nlt v e0) eqn:E0; cbn [negb].
    - rewrite filter_none.
      2:{ intros s Hin. apply negb_false_iff. exact (nlt_le_trans _ _ _ E0 (Hlo s Hin)). }
      rewrite filter_none; [lia|]. intros s Hin. apply negb_false_iff.
      apply (nlt_le_trans _ _ _ E0). apply Hlo. apply in_or_app. now left.
    - cbn [length]. rewrite filter_length_app. cbn [filter].
      destruct (nlt v en) eqn:En; cbn [negb length].
      + pose proof (filter_len_le (fun s => negb (nlt v s)) seps). lia.
      + rewrite filter_all; [lia|]. intros s Hin. apply negb_true_iff.
        destruct (nlt v s) eqn:E; auto. rewrite <- En. symmetry. exact (nlt_le_trans _ _ _ E (Hhi s Hin)).
  Qed.

  Lemma cellv_bound seps v : cellv seps v <= length seps.
  Proof. apply filter_len_le. Qed.

  (** entry b of the histogram counts the values in cell b *)
  Lemma hist_cell e0 seps en col b : edges_ok e0 seps en ->
    (forall w, In w col -> nle e0 w = true /\ nle w en = true) -> b <= length seps ->
    hist_at (e0 :: seps ++ [en]) col b = length (filter (fun w => cellv seps w =? b) col).
  Proof.
    intros [Hn Hlo Hhi Hs] Hcol Hb. unfold hist_at. apply filter_len_ext. intros w Hw.
    destruct (Hcol w Hw) as [W0 Wn]. destruct (nle_nan_r CL _ _ Wn) as [Nw _].
    replace (length (e0 :: seps ++ [en])) with (length seps + 2) by (cbn; rewrite app_length; cbn; lia).
    assert (PC : forall k, k < length seps -> negb (nlt w (nth k seps nnan)) = (k <? cellv seps w)).
    { intros k Hk. apply (prefix_count (fun s => negb (nlt w s)) nnan seps); auto. intros a c Hac Hc Hp.
      apply negb_true_iff. apply negb_true_iff in Hp. destruct (nlt w (nth a seps nnan)) eqn:E; auto.
      rewrite <- Hp. symmetry. exact (nlt_le_trans _ _ _ E (Hs a c Hac Hc)). }
    pose proof (cellv_bound seps w) as B.
    assert (L : nle (nth b (e0 :: seps ++ [en]) nnan) w = (b <=? cellv seps w)).
    { destruct b as [|b]; cbn [nth]; [rewrite W0; reflexivity|]. rewrite app_nth1 by lia.
      rewrite (nle_not_lt CL).
      - rewrite PC by lia. destruct (Nat.ltb_spec b (cellv seps w)), (Nat.leb_spec (S b) (cellv seps w)); auto; lia.
      - apply Hn. right. apply in_or_app. left. apply nth_In. lia.
      - assumption. }
    rewrite L.
    assert (U : (if b + 2 =? length seps + 2 then nle w (nth (b + 1) (e0 :: seps ++ [en]) nnan)
                 else nlt w (nth (b + 1) (e0 :: seps ++ [en]) nnan)) = (cellv seps w <=? b)).
    { rewrite (Nat.add_comm b 1). cbn [nth Nat.add]. destruct (Nat.eqb_spec (b + 2) (length seps + 2)).
      - rewrite app_nth2 by lia. replace (b - length seps) with 0 by lia. cbn [nth]. rewrite Wn. symmetry. apply Nat.leb_le. lia.
      - rewrite app_nth1 by lia. pose proof (PC b ltac:(lia)) as P. destruct (nlt w (nth b seps nnan)); cbn in P.
        + symmetry in P. apply Nat.ltb_ge in P. symmetry. apply Nat.leb_le. lia.
        + symmetry in P. apply Nat.ltb_lt in P. symmetry. apply Nat.leb_gt. lia. }
    rewrite U. destruct (Nat.leb_spec b (cellv seps w)), (Nat.leb_spec (cellv seps w) b), (Nat.eqb_spec (cellv seps w) b); auto; lia.
  Qed.

  (** mass of the objects in the cells b..c *)
  Definition massv (seps col : list V) (b c : nat) : nat :=
    length (filter (fun w => (b <=? cellv seps w) && (cellv seps w <=? c)) col).

  Lemma count_split {A} (f : A -> nat) l b k :
    length (filter (fun w => (b <=? f w) && (f w <=? b + S k)) l) =
    length (filter (fun w => (b <=? f w) && (f w <=? b + k)) l) + length (filter (fun w => f w =? b + S k) l).
  Proof.
    induction l as [|w l IH]; [reflexivity|]. cbn [filter].
    destruct (Nat.leb_spec b (f w)), (Nat.leb_spec (f w) (b + S k)), (Nat.leb_spec (f w) (b + k)), (Nat.eqb_spec (f w) (b + S k));
      cbn [andb length]; lia.
  Qed.

  Lemma cum_mass e0 seps en col b c : edges_ok e0 seps en ->
    (forall w, In w col -> nle e0 w = true /\ nle w en = true) -> b <= c -> c <= length seps ->
    cum_at (hist (e0 :: seps ++ [en]) col) b c = massv seps col b c.
  Proof.
    intros HE Hcol Hbc Hc. unfold cum_at, hist.
    replace (length (e0 :: seps ++ [en]) - 1) with (S (length seps)) by (cbn; rewrite app_length; cbn; lia).
    assert (E : firstn (c - b + 1) (skipn b (map (hist_at (e0 :: seps ++ [en]) col) (seq 0 (S (length seps))))) =
                map (hist_at (e0 :: seps ++ [en]) col) (seq b (c - b + 1))).
    { rewrite skipn_map, firstn_map. f_equal.
      assert (S1 : seq 0 (S (length seps)) = seq 0 b ++ seq b (c - b + 1) ++ seq (c + 1) (length seps - c)).
      { replace (S (length seps)) with (b + ((c - b + 1) + (length seps - c))) by lia. rewrite seq_app. f_equal. cbn [Nat.add].
        rewrite seq_app. f_equal. f_equal. lia. }
      rewrite S1, skipn_app. rewrite skipn_all2 by (rewrite seq_length; lia). rewrite seq_length, Nat.sub_diag. cbn [app skipn].
      rewrite firstn_app, seq_length, Nat.sub_diag. cbn [firstn]. rewrite app_nil_r. apply firstn_all2. rewrite seq_length. lia. }
    rewrite E. clear E. unfold massv. assert (X : exists k, c = b + k) by (exists (c - b); lia). destruct X as (k & ->).
    replace (b + k - b) with k by lia. clear Hbc.
    induction k as [|k IH].
    - cbn [seq map sum_nat Nat.add]. rewrite (hist_cell e0 seps en col b HE Hcol) by lia. rewrite !Nat.add_0_r.
      apply filter_len_ext. intros w _. destruct (Nat.leb_spec b (cellv seps w)), (Nat.leb_spec (cellv seps w) b), (Nat.eqb_spec (cellv seps w) b); auto; lia.
    - rewrite (Nat.add_comm (S k) 1). cbn [Nat.add]. rewrite (seq_S (S k) b), map_app, sum_nat_app. cbn [map sum_nat].
      rewrite (Nat.add_comm k 1) in IH. cbn [Nat.add] in IH. rewrite IH by lia.
      rewrite (hist_cell e0 seps en col (b + S k) HE Hcol) by lia. rewrite count_split. lia.
  Qed.
End Bins.
