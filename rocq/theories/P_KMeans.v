(** Proofs about k-means++ (approximate.py:224-342) in exact arithmetic. *)
From Coq Require Import String.
From Coq Require Import ZArith List Arith Lia Bool Permutation Reals Lra.
From Verif Require Import Py Num NumT Arr S_Approx M_Approx P_Approx.
Import ListNotations.
Local Open Scope R_scope.

Lemma xlt_fin a b : nlt (XFin a) (XFin b) = (if Rlt_dec a b then true else false).
Proof. reflexivity. Qed.

Lemma cumsum_fin l a : cumsum (XFin a) (map XFin l) = map XFin (map (fun k => a + rsum (firstn (S k) l)) (seq 0 (length l))).
Proof.
  revert a. induction l as [|x l IH]; intros a; [reflexivity|].
  cbn [map cumsum length seq]. change (nadd (XFin a) (XFin x)) with (XFin (a + x)). rewrite IH. f_equal.
  - cbn. f_equal. lra.
  - rewrite <- seq_shift, !map_map. apply map_ext. intros k. f_equal. cbn [firstn rsum fold_right]. unfold rsum. lra.
Qed.

Lemma search_left_spec l a v : (forall x, In x l -> 0 <= x) -> a < v <= a + rsum l ->
  exists k, search_left (cumsum (XFin a) (map XFin l)) (XFin v) = k /\ (k < length l)%nat /\
    a + rsum (firstn k l) < v <= a + rsum (firstn (S k) l).
Proof.
  revert a. induction l as [|x l IH]; intros a Hp Hv; [cbn in Hv; lra|].
  cbn [map cumsum search_left]. change (nadd (XFin a) (XFin x)) with (XFin (a + x)). rewrite xlt_fin.
  destruct (Rlt_dec (a + x) v) as [H|H].
  - destruct (IH (a + x)) as (k & E & Hk & B).
    + intros; apply Hp; now right.
    + cbn in Hv. unfold rsum. lra.
    + exists (S k). rewrite E. split; [reflexivity|]. split; [cbn; lia|]. cbn [firstn rsum fold_right] in *. unfold rsum in *. lra.
  - exists 0%nat. split; [reflexivity|]. split; [cbn; lia|]. cbn. lra.
Qed.
Lemma search_left_low l v : (forall x, In x l -> 0 <= x) -> v <= 0 -> search_left (cumsum (XFin 0) (map XFin l)) (XFin v) = 0%nat.
Proof.
  intros Hp Hv. destruct l as [|x l]; [reflexivity|]. cbn [map cumsum search_left]. change (nadd (XFin 0) (XFin x)) with (XFin (0 + x)).
  rewrite xlt_fin. destruct (Rlt_dec (0 + x) v) as [H|H]; [|reflexivity]. specialize (Hp x (or_introl eq_refl)). lra.
Qed.

Lemma near_snoc d ind c x : ind <> [] -> near d (ind ++ [c]) x = Rmin (near d ind x) (d c x).
Proof. destruct ind as [|a ind]; [congruence|]. intros _. cbn. now rewrite fold_left_app. Qed.
Lemma near_le d ind x : forall c, In c ind -> near d ind x <= d c x.
Proof.
  induction ind as [|b ind IH] using rev_ind; [contradiction|]. intros c Hc.
  destruct ind as [|a ind]; [destruct Hc as [<-|[]]; cbn; lra|].
  rewrite near_snoc by discriminate. apply in_app_iff in Hc as [Hc|[<-|[]]].
  - eapply Rle_trans; [apply Rmin_l|]. now apply IH.
  - apply Rmin_r.
Qed.
Lemma near_in d ind x : ind <> [] -> exists c, In c ind /\ near d ind x = d c x.
Proof.
  induction ind as [|b ind IH] using rev_ind; [congruence|]. intros _.
  destruct ind as [|a ind]; [exists b; cbn; auto|].
  rewrite near_snoc by discriminate. destruct IH as (c & Hc & E); [discriminate|].
  destruct (Rle_dec (near d (a :: ind) x) (d b x)) as [H|H].
  - exists c. split; [apply in_app_iff; now left|]. rewrite Rmin_left by exact H. exact E.
  - exists b. split; [apply in_app_iff; right; now left|]. rewrite Rmin_right; [reflexivity|lra].
Qed.

Lemma minimum_fin (f g : nat -> R) l :
  minimum (map XFin (map f l)) (map XFin (map g l)) = map XFin (map (fun x => Rmin (f x) (g x)) l).
Proof.
  unfold minimum. induction l as [|x l IH]; cbn [map combine]; [reflexivity|]. f_equal; [|exact IH].
  cbn [fst snd]. rewrite xlt_fin. destruct (Rlt_dec (g x) (f x)) as [H|H]; f_equal; symmetry; [apply Rmin_right|apply Rmin_left]; lra.
Qed.

Section KM.
  Variables (d : nat -> nat -> R) (n : nat).
  Hypothesis d_nonneg : forall i j, 0 <= d i j.
  Hypothesis d_self : forall i, d i i = 0.
  Definition dl (i : nat) : list xr := map XFin (map (d i) (seq 0 n)).

  Lemma near_nonneg ind x : ind <> [] -> 0 <= near d ind x.
  Proof using d_nonneg. intros H. destruct (near_in d ind x H) as (c & _ & ->). apply d_nonneg. Qed.
  Lemma near_zero ind x : In x ind -> near d ind x = 0.
  Proof using d_nonneg d_self.
    intros H. apply Rle_antisym; [|apply near_nonneg; intros ->; contradiction].
    rewrite <- (d_self x). now apply near_le.
  Qed.
  Lemma potential_nonneg ind : ind <> [] -> 0 <= potential d n ind.
  Proof using d_nonneg. intros H. apply rsum_nonneg. intros x Hx. apply in_map_iff in Hx as (y & <- & _). now apply near_nonneg. Qed.

  (** the best of the candidates *)
  Lemma best_candidate_spec ind cands : ind <> [] -> cands <> [] ->
    exists c, In c cands /\
      best_candidate xsum (map XFin (map (near d ind) (seq 0 n))) dl cands
      = Some (c, XFin (potential d n (ind ++ [c])), map XFin (map (near d (ind ++ [c])) (seq 0 n))) /\
      forall c', In c' cands -> potential d n (ind ++ [c]) <= potential d n (ind ++ [c']).
  Proof.
    intros Hi. unfold best_candidate.
    set (step := fun (best : option (nat * xr * list xr)) (c : nat) => _).
    assert (S0 : forall c, minimum (map XFin (map (near d ind) (seq 0 n))) (dl c) = map XFin (map (near d (ind ++ [c])) (seq 0 n))).
    { intros c. unfold dl. rewrite minimum_fin. f_equal. apply map_ext. intros x. now rewrite near_snoc. }
    assert (S1 : forall c, xsum (map XFin (map (near d (ind ++ [c])) (seq 0 n))) = XFin (potential d n (ind ++ [c]))).
    { intros c. apply xsum_fin. }
    induction cands as [|c cands IH] using rev_ind; [congruence|]. intros _. rewrite fold_left_app. cbn [fold_left].
    destruct cands as [|a cands].
    - exists c. split; [now left|]. cbn [fold_left]. unfold step. rewrite S0, S1. split; [reflexivity|]. intros c' [<-|[]]. lra.
    - destruct IH as (b & Hb & -> & Hmin); [discriminate|]. unfold step at 1. rewrite S0, S1. rewrite xlt_fin.
      destruct (Rlt_dec (potential d n (ind ++ [c])) (potential d n (ind ++ [b]))) as [H|H].
      + exists c. split; [apply in_app_iff; right; now left|]. split; [reflexivity|].
        intros c' Hc'. apply in_app_iff in Hc' as [Hc'|[<-|[]]]; [|lra]. specialize (Hmin _ Hc'). lra.
      + exists b. split; [apply in_app_iff; now left|]. split; [reflexivity|].
        intros c' Hc'. apply in_app_iff in Hc' as [Hc'|[<-|[]]]; [now apply Hmin|lra].
  Qed.

  (** candidates *)
  Lemma cand_drawn ind r : ind <> [] -> (0 < n)%nat -> 0 <= r < 1 ->
    drawn d n ind r (search_left (cumsum n0 (map XFin (map (near d ind) (seq 0 n)))) (nmul (XFin r) (XFin (potential d n ind)))).
  Proof using d_nonneg.
    intros Hi Hn Hr. change (nmul (XFin r) (XFin (potential d n ind))) with (XFin (r * potential d n ind)).
    change n0 with (XFin 0). set (w := map (near d ind) (seq 0 n)). set (v := r * potential d n ind).
    assert (Hw : forall x, In x w -> 0 <= x).
    { intros x Hx. apply in_map_iff in Hx as (y & <- & _). now apply near_nonneg. }
    assert (Hp : 0 <= potential d n ind) by now apply potential_nonneg.
    assert (Hv : 0 <= v <= potential d n ind) by (split; [apply Rmult_le_pos; lra|]; rewrite <- (Rmult_1_l (potential d n ind)); apply Rmult_le_compat_r; lra).
    unfold drawn. fold w. fold v. destruct (Rle_lt_or_eq_dec 0 v (proj1 Hv)) as [H|H].
    - destruct (search_left_spec w 0 v Hw) as (k & -> & Hk & B); [split; [exact H|]; rewrite Rplus_0_l; exact (proj2 Hv)|].
      unfold w in Hk. rewrite map_length, seq_length in Hk. split; [exact Hk|]. right. lra.
    - rewrite search_left_low by (auto; lra). split; [exact Hn|]. left. split; [now symmetry|reflexivity].
  Qed.

  Definition km_inv (s : km) : Prop :=
    km_ind s <> [] /\ km_closest s = map XFin (map (near d (km_ind s)) (seq 0 n)) /\
    km_pot s = XFin (potential d n (km_ind s)).

  Lemma km_round_spec rs s : km_inv s -> (0 < n)%nat -> rs <> [] -> (forall r, In r rs -> 0 <= r < 1) ->
    exists s' c cands, km_round xsum n dl (map XFin rs) s = Ok s' /\ km_inv s' /\ km_ind s' = km_ind s ++ [c] /\ In c cands /\
      Forall2 (drawn d n (km_ind s)) rs cands /\
      forall c', In c' cands -> potential d n (km_ind s ++ [c]) <= potential d n (km_ind s ++ [c']).
  Proof using d_nonneg.
    intros (Hi & Ec & Ep) Hn Hrs Hr.
    set (f := fun r => search_left (cumsum n0 (map XFin (map (near d (km_ind s)) (seq 0 n)))) (nmul (XFin r) (XFin (potential d n (km_ind s))))).
    destruct (best_candidate_spec (km_ind s) (map f rs)) as (c & Hc & Eb & Hmin); [exact Hi|now destruct rs|].
    assert (FD : Forall2 (drawn d n (km_ind s)) rs (map f rs)).
    { clear -Hr Hi Hn d_nonneg f. induction rs as [|r rs IH]; cbn; constructor.
      - apply cand_drawn; auto. apply Hr. now left.
      - apply IH. intros; apply Hr; now right. }
    exists (KM (km_ind s ++ [c]) (map XFin (map (near d (km_ind s ++ [c])) (seq 0 n))) (XFin (potential d n (km_ind s ++ [c])))), c, (map f rs).
    split; [|repeat split; auto].
    - unfold km_round. rewrite Ec, Ep, map_map. fold f.
      assert (Eg : existsb (fun c => (n <=? c)%nat) (map f rs) = false).
      { apply not_true_is_false. intros Ht. apply existsb_exists in Ht as (x & Hx & Hle). apply Nat.leb_le in Hle.
        assert (G : forall x, In x (map f rs) -> (x < n)%nat).
        { clear -FD. revert FD. generalize (map f rs). intros l F. induction F as [|a b la lb H F IH]; intros y Hy; [contradiction|].
          destruct Hy as [<-|Hy]; [apply H|now apply IH]. }
        specialize (G x Hx). lia. }
      rewrite Eg. cbn [guard bind]. rewrite Eb. reflexivity.
    - cbn. intros E. now apply app_eq_nil in E as (_ & E).
  Qed.

  Definition in_unit (r : R) : Prop := 0 <= r < 1.

  (** the whole run *)
  Local Notation km_trace := (greedy_centres d n).

  Lemma kmeanspp_spec k first rs : (1 <= k)%nat -> (first < n)%nat ->
    (forall c, (1 <= c < k)%nat -> rs c <> [] /\ forall r, In r (rs c) -> in_unit r) ->
    exists ind, kmeanspp xsum n k dl first (fun c => map XFin (rs c)) = Ok ind /\ km_trace first rs k ind.
  Proof using d_nonneg.
    intros Hk Hf Hr. unfold kmeanspp.
    replace (k =? 0)%nat with false by (symmetry; apply Nat.eqb_neq; lia).
    replace (n =? 0)%nat with false by (symmetry; apply Nat.eqb_neq; lia). cbn [guard bind].
    set (step := fun (c : nat) (s : result km) => _). set (s0 := KM _ _ _).
    assert (G : forall j, (j < k)%nat -> exists s, for_ j step (Ok s0) = Ok s /\ km_inv s /\ km_trace first rs (S j) (km_ind s)).
    { induction j as [|j IH]; intros Hj.
      - rewrite for_0. exists s0. split; [reflexivity|]. split.
        + split; [discriminate|]. split; [reflexivity|]. cbn. apply xsum_fin.
        + split; [reflexivity|]. split; [reflexivity|]. intros c Hc. lia.
      - destruct IH as (s & E & Hinv & Hl & H0 & Ht); [lia|]. rewrite for_S, E.
        destruct (Hr (S j)) as (Hne & Hu); [lia|].
        destruct (km_round_spec (rs (S j)) s Hinv) as (s' & c & cands & E' & Hinv' & Ei & Hc & FD & Hmin); auto; [lia|].
        exists s'. split; [unfold step; cbn [bind]; replace (j + 1)%nat with (S j) by lia; exact E'|]. split; [exact Hinv'|].
        rewrite Ei. split; [rewrite app_length; cbn; lia|]. split; [now rewrite app_nth1 by lia|].
        intros q Hq. destruct (Nat.eq_dec q (S j)) as [->|Hne'].
        + exists cands.
          assert (Efi : firstn (S j) (km_ind s ++ [c]) = km_ind s).
          { rewrite <- Hl, firstn_app, Nat.sub_diag, firstn_all. cbn [firstn]. apply app_nil_r. }
          assert (En : nth (S j) (km_ind s ++ [c]) 0%nat = c) by (rewrite <- Hl; apply nth_middle).
          rewrite Efi, En. auto.
        + destruct (Ht q) as (cs & F1 & F2 & F3); [lia|]. exists cs.
          rewrite firstn_app, app_nth1 by lia. replace (q - length (km_ind s))%nat with 0%nat by lia. cbn [firstn]. rewrite app_nil_r. auto. }
    destruct (G (k - 1)%nat) as (s & E & _ & T); [lia|]. rewrite E. cbn [bind]. exists (km_ind s). split; [reflexivity|].
    replace k with (S (k - 1)) by lia. exact T.
  Qed.

  Lemma drawn_lt ind r x : drawn d n ind r x -> (x < n)%nat.
  Proof. intros (H & _). exact H. Qed.
  Lemma Forall2_in {A B} (P : A -> B -> Prop) la lb y : Forall2 P la lb -> In y lb -> exists x, In x la /\ P x y.
  Proof.
    induction 1 as [|a b la lb H F IH]; [contradiction|]. intros [<-|Hy]; [exists a; cbn; auto|].
    destruct (IH Hy) as (x & Hx & Px). exists x. cbn; auto.
  Qed.
  Lemma km_trace_range first rs k ind : km_trace first rs k ind -> (first < n)%nat -> forall x, In x ind -> (x < n)%nat.
  Proof.
    intros (Hl & H0 & Ht) Hf x Hx. destruct (In_nth _ _ 0%nat Hx) as (c & Hc & <-).
    destruct c as [|c]; [now rewrite H0|]. destruct (Ht (S c)) as (cands & F & Hin & _); [lia|].
    destruct (Forall2_in _ _ _ _ F Hin) as (r & _ & Hd). apply Hd.
  Qed.

  (** a drawn object has positive weight *)
  Lemma drawn_pos ind r x : ind <> [] -> 0 < r -> 0 < potential d n ind -> drawn d n ind r x -> 0 < near d ind x.
  Proof using d_nonneg.
    intros Hi Hr Hp (Hx & [(Hv & _)|(Hv & B1 & B2)]); [nra|].
    assert (E : rsum (firstn (S x) (map (near d ind) (seq 0 n))) = rsum (firstn x (map (near d ind) (seq 0 n))) + near d ind x).
    { rewrite <- (firstn_skipn x (firstn (S x) _)), rsum_app. rewrite firstn_firstn. replace (Nat.min x (S x)) with x by lia.
      f_equal. rewrite firstn_map, skipn_map. replace n with (x + S (n - x - 1))%nat by lia. rewrite seq_app.
      rewrite firstn_app, seq_length. replace (S x - x)%nat with 1%nat by lia. rewrite firstn_all2 by (rewrite seq_length; lia).
      cbn [seq firstn Nat.add]. rewrite skipn_app, seq_length, Nat.sub_diag. rewrite skipn_all2 by (rewrite seq_length; lia). cbn. lra. }
    lra.
  Qed.
  Hypothesis d_sep : forall i j, i <> j -> 0 < d i j.
  Lemma potential_pos ind : ind <> [] -> (length ind < n)%nat -> 0 < potential d n ind.
  Proof using d_nonneg d_sep.
    intros Hi Hl.
    assert (E : exists x, (x < n)%nat /\ ~ In x ind).
    { destruct (Forall_Exists_dec (fun x => In x ind) (fun x => in_dec Nat.eq_dec x ind) (seq 0 n)) as [H|H].
      - exfalso. rewrite Forall_forall in H. pose proof (NoDup_incl_length (seq_NoDup n 0) H) as L. rewrite seq_length in L. lia.
      - apply Exists_exists in H as (x & Hx & Hn). exists x. apply in_seq in Hx. split; [lia|exact Hn]. }
    destruct E as (x & Hx & Hn). destruct (near_in d ind x Hi) as (c & Hc & Ec).
    assert (P : 0 < near d ind x) by (rewrite Ec; apply d_sep; intros ->; contradiction).
    unfold potential. replace n with (x + S (n - x - 1))%nat by lia. rewrite seq_app, map_app, rsum_app. cbn [seq map Nat.add].
    assert (Q : forall l, 0 <= rsum (map (near d ind) l)).
    { intros l. apply rsum_nonneg. intros z Hz. apply in_map_iff in Hz as (y & <- & _). now apply near_nonneg. }
    pose proof (Q (seq 0 x)). pose proof (Q (seq (S x) (n - x - 1))).
    change (rsum (near d ind x :: map (near d ind) (seq (S x) (n - x - 1)))) with (near d ind x + rsum (map (near d ind) (seq (S x) (n - x - 1)))). lra.
  Qed.
  Lemma km_distinct first rs k ind : km_trace first rs k ind -> (k <= n)%nat ->
    (forall c r, (1 <= c < k)%nat -> In r (rs c) -> 0 < r) -> NoDup ind.
  Proof using d_nonneg d_self d_sep.
    intros (Hl & H0 & Ht) Hk Hr.
    assert (G : forall c, (c <= k)%nat -> NoDup (firstn c ind)).
    { induction c as [|c IH]; intros Hc; [constructor|].
      assert (Es : firstn (S c) ind = firstn c ind ++ [nth c ind 0%nat]).
      { rewrite <- (firstn_skipn c (firstn (S c) ind)), firstn_firstn. replace (Nat.min c (S c)) with c by lia. f_equal.
        rewrite skipn_firstn_comm. replace (S c - c)%nat with 1%nat by lia.
        destruct (skipn c ind) as [|y t] eqn:E.
        - assert (L := skipn_length c ind). rewrite E in L. cbn in L. lia.
        - cbn. f_equal. rewrite <- (firstn_skipn c ind), E. rewrite app_nth2; rewrite firstn_length; [|lia].
          replace (c - Nat.min c (length ind))%nat with 0%nat by lia. reflexivity. }
      rewrite Es.
      apply (Permutation_NoDup (Permutation_cons_append (firstn c ind) (nth c ind 0%nat))).
      constructor; [|apply IH; lia].
      destruct c as [|c]; [cbn; tauto|].
      destruct (Ht (S c)) as (cands & F & Hin & _); [lia|]. destruct (Forall2_in _ _ _ _ F Hin) as (r & Hrr & Hd).
      assert (Hne : firstn (S c) ind <> []) by (intros E; assert (L := firstn_length (S c) ind); rewrite E in L; change (0%nat = Nat.min (S c) (length ind)) in L; lia).
      intros Hc'. assert (P : 0 < near d (firstn (S c) ind) (nth (S c) ind 0%nat)).
      { apply (drawn_pos _ r); auto; [apply (Hr (S c)); [lia|exact Hrr]|]. apply potential_pos; [exact Hne|]. rewrite firstn_length. lia. }
      rewrite near_zero in P by exact Hc'. lra. }
    rewrite <- (firstn_all ind). apply G. lia.
  Qed.
End KM.
