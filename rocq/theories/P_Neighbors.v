(** Consequences of the argpartition contract for nearest neighbour lists. *)
From Coq Require Import String.
From Coq Require Import ZArith List Arith Lia Bool Permutation.
From Verif Require Import Py Num Arr Sort S_Neighbors.
Import ListNotations.

Section S.
  Context {V : Type} {N : Num V} {toX : V -> xr} (CL : CmpLaws V N toX).

  Lemma sle_not_lt x y : sle x y = true -> nlt y x = false.
  Proof.
    intros H. destruct (nlt y x) eqn:E; [|reflexivity].
    apply (nlt_not_sle CL) in E. congruence.
  Qed.

  Lemma In_nth_firstn k (p : list nat) x : In x (firstn k p) ->
    exists a, a < k /\ a < length p /\ nth a p 0 = x.
  Proof.
    intros H. apply (In_nth _ _ 0) in H as (a & Ha & E).
    rewrite firstn_length in Ha. exists a. repeat split; try lia.
    rewrite <- E. rewrite <- (firstn_skipn k p) at 1. rewrite app_nth1; [reflexivity|].
    rewrite firstn_length; lia.
  Qed.

  Lemma nth_firstn_lt {A} k (p : list A) a d : a < k -> nth a (firstn k p) d = nth a p d.
  Proof.
    revert p a. induction k as [|k IH]; intros p a H; [lia|].
    destruct p as [|x p]; [reflexivity|]. destruct a as [|a]; [reflexivity|].
    simpl. apply IH. lia.
  Qed.

  Lemma nth_skipn_add {A} k (p : list A) a d : nth a (skipn k p) d = nth (k + a) p d.
  Proof.
    revert p. induction k as [|k IH]; intros p; [reflexivity|].
    destruct p as [|x p]; [destruct a; reflexivity|]. simpl. apply IH.
  Qed.

  Lemma NoDup_firstn {A} k (p : list A) : NoDup p -> NoDup (firstn k p).
  Proof.
    intros H. rewrite <- (firstn_skipn k p) in H.
    revert H. generalize (skipn k p). induction (firstn k p) as [|a l IH]; intros l' H.
    - constructor.
    - simpl in H. inversion H; subst. constructor.
      + intros Hin. apply H2. apply in_or_app; now left.
      + eauto.
  Qed.

  Lemma NoDup_skipn {A} k (p : list A) : NoDup p -> NoDup (skipn k p).
  Proof.
    revert p; induction k as [|k IH]; intros p H; [assumption|].
    destruct p as [|x p]; [constructor|]. inversion H; subst. simpl. auto.
  Qed.

  (** positions of a permutation *)
  Lemma perm_pos (p : list nat) n x : Permutation p (seq 0 n) -> x < n ->
    exists c, c < n /\ nth c p 0 = x.
  Proof.
    intros Hp Hx. apply (perm_seq_In _ _ _ Hp) in Hx.
    apply (In_nth _ _ 0) in Hx as (c & Hc & E).
    rewrite (perm_seq_length _ _ Hp) in Hc. eauto.
  Qed.

  (** smallest first: partition at positions 0..k-1 *)
  Lemma argpart_knn_dist (l : list V) k p :
    k <= length l -> is_argpart l (seq 0 k) p ->
    knn_list (fun x y => nlt (vat l x) (vat l y)) (length l) k (firstn k p).
  Proof.
    intros Hk (Hp & Hs).
    pose proof (perm_seq_length _ _ Hp) as Lp.
    constructor.
    - rewrite firstn_length. lia.
    - apply NoDup_firstn, (perm_seq_NoDup _ _ Hp).
    - intros x Hx. apply In_nth_firstn in Hx as (a & _ & Ha & <-).
      apply (perm_seq_nth p); auto; lia.
    - intros a b Hab Hb. rewrite !nth_firstn_lt by lia.
      apply sle_not_lt. apply (Hs b); [apply in_seq; lia|assumption].
    - intros x y Hx Hnx Hy.
      apply In_nth_firstn in Hy as (a & Ha & Hal & <-).
      destruct (perm_pos p _ x Hp Hx) as (c & Hc & <-).
      assert (k <= c).
      { destruct (le_lt_dec k c); [assumption|]. exfalso. apply Hnx.
        rewrite <- (nth_firstn_lt k p c 0) by assumption. apply nth_In.
        rewrite firstn_length. lia. }
      apply sle_not_lt. apply (Hs a); [apply in_seq; lia | lia | lia].
  Qed.

  (** a single partition position [k]: the [k] elements before it are a set of
      [k] smallest (order among them unspecified) *)
  Lemma argpart_kset_dist (l : list V) k p :
    k < length l -> is_argpart l [k] p ->
    length (firstn k p) = k /\ NoDup (firstn k p) /\
    (forall x, In x (firstn k p) -> x < length l) /\
    (forall x y, x < length l -> ~ In x (firstn k p) -> In y (firstn k p) ->
       nlt (vat l x) (vat l y) = false).
  Proof.
    intros Hk (Hp & Hs).
    pose proof (perm_seq_length _ _ Hp) as Lp.
    repeat split.
    - rewrite firstn_length. lia.
    - apply NoDup_firstn, (perm_seq_NoDup _ _ Hp).
    - intros x Hx. apply In_nth_firstn in Hx as (a & _ & Ha & <-).
      apply (perm_seq_nth p); auto; lia.
    - intros x y Hx Hnx Hy.
      apply In_nth_firstn in Hy as (a & Ha & Hal & <-).
      destruct (perm_pos p _ x Hp Hx) as (c & Hc & <-).
      assert (k <= c).
      { destruct (le_lt_dec k c); [assumption|]. exfalso. apply Hnx.
        rewrite <- (nth_firstn_lt k p c 0) by assumption. apply nth_In.
        rewrite firstn_length. lia. }
      apply sle_not_lt.
      assert (H1 : sle (vat l (nth a p 0)) (vat l (nth k p 0)) = true)
        by (apply (Hs k); [now left | assumption]).
      destruct (Nat.eq_dec k c) as [->|]; [assumption|].
      eapply (sle_trans CL); [exact H1|]. apply (Hs k); [now left | lia | lia].
  Qed.

  Lemma nth_rev_skipn (p : list nat) n k a :
    length p = n -> k <= n -> a < k -> nth a (rev (skipn (n - k) p)) 0 = nth (n - 1 - a) p 0.
  Proof.
    intros L Hk Ha. rewrite rev_nth by (rewrite skipn_length; lia).
    rewrite nth_skipn_add, skipn_length. f_equal. lia.
  Qed.

  Lemma In_skipn_pos k (p : list nat) x : In x (skipn k p) ->
    exists c, k <= c /\ c < length p /\ nth c p 0 = x.
  Proof.
    intros H. apply (In_nth _ _ 0) in H as (a & Ha & E).
    rewrite skipn_length in Ha. rewrite nth_skipn_add in E.
    exists (k + a). repeat split; first [lia | assumption].
  Qed.

  Lemma pos_In_skipn k (p : list nat) c : k <= c -> c < length p -> In (nth c p 0) (skipn k p).
  Proof.
    intros H1 H2. replace c with (k + (c - k)) by lia. rewrite <- nth_skipn_add.
    apply nth_In. rewrite skipn_length. lia.
  Qed.

  (** largest first: partition at the last k positions, reversed *)
  Lemma argpart_knn_sim (l : list V) k p :
    k <= length l -> is_argpart l (seq (length l - k) k) p ->
    knn_list (fun x y => nlt (vat l y) (vat l x)) (length l) k
             (rev (skipn (length l - k) p)).
  Proof.
    intros Hk (Hp & Hs).
    pose proof (perm_seq_length _ _ Hp) as Lp.
    constructor.
    - rewrite rev_length, skipn_length. lia.
    - apply NoDup_rev, NoDup_skipn, (perm_seq_NoDup _ _ Hp).
    - intros x Hx. apply in_rev in Hx. apply In_skipn_pos in Hx as (c & _ & Hc & <-).
      apply (perm_seq_nth p); auto; lia.
    - intros a b Hab Hb. rewrite !nth_rev_skipn by lia.
      apply sle_not_lt. apply (Hs (length l - 1 - a)); [apply in_seq; lia | lia].
    - intros x y Hx Hnx Hy.
      apply in_rev in Hy. apply In_skipn_pos in Hy as (c & Hc & Hc' & <-).
      destruct (perm_pos p _ x Hp Hx) as (a & Ha & <-).
      assert (a < length l - k).
      { destruct (le_lt_dec (length l - k) a) as [H|H]; [|assumption].
        exfalso. apply Hnx. apply -> in_rev. apply pos_In_skipn; lia. }
      apply sle_not_lt. apply (Hs c); [apply in_seq; lia | lia].
  Qed.

  (** a single partition position [n-k]: the elements from it on are a set of
      [k] largest *)
  Lemma argpart_kset_sim (l : list V) k p :
    0 < k -> k <= length l -> is_argpart l [length l - k] p ->
    let nn := skipn (length l - k) p in
    length nn = k /\ NoDup nn /\
    (forall x, In x nn -> x < length l) /\
    (forall x y, x < length l -> ~ In x nn -> In y nn ->
       nlt (vat l y) (vat l x) = false).
  Proof.
    intros Hk0 Hk (Hp & Hs). cbv zeta.
    pose proof (perm_seq_length _ _ Hp) as Lp.
    repeat split.
    - rewrite skipn_length. lia.
    - apply NoDup_skipn, (perm_seq_NoDup _ _ Hp).
    - intros x Hx. apply In_skipn_pos in Hx as (c & _ & Hc & <-).
      apply (perm_seq_nth p); auto; lia.
    - intros x y Hx Hnx Hy.
      apply In_skipn_pos in Hy as (c & Hc & Hc' & <-).
      destruct (perm_pos p _ x Hp Hx) as (a & Ha & <-).
      assert (a < length l - k).
      { destruct (le_lt_dec (length l - k) a) as [H|H]; [|assumption].
        exfalso. apply Hnx. apply pos_In_skipn; lia. }
      apply sle_not_lt.
      assert (H1 : sle (vat l (nth a p 0)) (vat l (nth (length l - k) p 0)) = true)
        by (apply (Hs (length l - k)); [now left | assumption]).
      destruct (Nat.eq_dec (length l - k) c) as [E|]; [now rewrite <- E|].
      eapply (sle_trans CL); [exact H1|].
      apply (Hs (length l - k)); [now left | lia | lia].
  Qed.

End S.

(* ------------------------------------------------------------------ *)
(** ** Facts about [knn_list] itself *)

(** If every usable candidate beats every unusable one and there are at least
    [k] usable ones, then only usable ones are listed. *)
Lemma knn_list_usable better m k nn (us : nat -> bool) :
  knn_list better m k nn ->
  (forall x y, x < m -> y < m -> us x = true -> us y = false -> better x y = true) ->
  k <= count_if us m ->
  forall y, In y nn -> us y = true.
Proof.
  intros Hk Hb Hc y Hy.
  destruct (us y) eqn:Ey; [reflexivity|]. exfalso.
  destruct (existsb (fun x => us x && negb (existsb (Nat.eqb x) nn)) (seq 0 m)) eqn:Ex.
  - apply existsb_exists in Ex as (x & Hx & E). apply in_seq in Hx.
    apply andb_prop in E as (E1 & E2). apply negb_true_iff in E2.
    assert (~ In x nn).
    { intros Hin. assert (existsb (Nat.eqb x) nn = true); [|congruence].
      apply existsb_exists. exists x. split; [assumption|apply Nat.eqb_refl]. }
    assert (B1 : better x y = false) by (eapply knn_best; eauto; lia).
    assert (B2 : better x y = true)
      by (apply Hb; auto; [lia | eapply knn_range; eauto]).
    congruence.
  - assert (Hin : forall x, x < m -> us x = true -> In x nn).
    { intros x Hx Hu.
      destruct (existsb (Nat.eqb x) nn) eqn:E.
      - apply existsb_exists in E as (z & Hz & E). apply Nat.eqb_eq in E. now subst.
      - exfalso. assert (existsb (fun x => us x && negb (existsb (Nat.eqb x) nn)) (seq 0 m) = true);
          [|congruence].
        apply existsb_exists. exists x. split; [apply in_seq; lia|]. now rewrite Hu, E. }
    assert (L : S (count_if us m) <= length nn).
    { change (S (count_if us m)) with (length (y :: filter us (seq 0 m))).
      apply NoDup_incl_length.
      - constructor.
        + intros H. apply filter_In in H as (_ & H). congruence.
        + apply NoDup_filter, seq_NoDup.
      - intros z [<-|Hz]; [assumption|]. apply filter_In in Hz as (Hz & Hu).
        apply in_seq in Hz. apply Hin; auto; lia. }
    rewrite (knn_len _ _ _ _ Hk) in L. lia.
Qed.

Lemma count_if_firstn (f : nat -> bool) m (nn : list nat) a :
  NoDup nn -> (forall x, In x nn -> x < m) -> a <= length nn ->
  (forall x, x < m -> (f x = true <-> In x (firstn a nn))) -> count_if f m = a.
Proof.
  intros Hnd Hr Ha Hf. unfold count_if.
  assert (Permutation (filter f (seq 0 m)) (firstn a nn)) as HP.
  { apply NoDup_Permutation.
    - apply NoDup_filter, seq_NoDup.
    - now apply NoDup_firstn.
    - intros x. rewrite filter_In, in_seq. split.
      + intros (Hx & Hfx). apply Hf; auto; lia.
      + intros Hx. assert (x < m).
        { apply Hr. rewrite <- (firstn_skipn a nn). apply in_or_app; now left. }
        split; [lia|]. now apply Hf. }
  apply Permutation_length in HP. rewrite HP, firstn_length. lia.
Qed.

(** Without ties the list is unique. *)
Lemma knn_list_unique better m k nn1 nn2 (us : nat -> bool) :
  knn_list better m k nn1 -> knn_list better m k nn2 ->
  (forall x y z, x < m -> y < m -> z < m -> better x y = true -> better y z = true -> better x z = true) ->
  (forall x, x < m -> better x x = false) ->
  (forall x y, x < m -> y < m -> us x = true -> us y = false -> better x y = true) ->
  (forall x y, x < m -> y < m -> x <> y -> us x = true -> us y = true ->
     better x y = true \/ better y x = true) ->
  k <= count_if us m ->
  nn1 = nn2.
Proof.
  intros H1 H2 Htr Hir Hus Hnt Hc.
  assert (G : forall nn, knn_list better m k nn -> forall a, a < k ->
    count_if (fun x => better x (nth a nn 0)) m = a).
  { intros nn Hnn a Ha.
    pose proof (knn_list_usable _ _ _ _ us Hnn Hus Hc) as Hu.
    pose proof (knn_len _ _ _ _ Hnn) as Ln.
    assert (Hin : forall b, b < k -> In (nth b nn 0) nn) by (intros; apply nth_In; lia).
    apply (count_if_firstn _ m nn a).
    - eapply knn_nodup; eauto.
    - eapply knn_range; eauto.
    - lia.
    - intros x Hx. split.
      + intros Hb.
        destruct (in_dec Nat.eq_dec x nn) as [Hxin|Hxn].
        * apply (In_nth _ _ 0) in Hxin as (b & Hb' & <-).
          destruct (lt_dec b a) as [Hlt|Hge].
          -- rewrite <- (nth_firstn_lt a nn b 0) by assumption. apply nth_In.
             rewrite firstn_length. lia.
          -- exfalso. destruct (Nat.eq_dec b a) as [->|Hne].
             ++ rewrite Hir in Hb; [discriminate|]. eapply knn_range; eauto.
             ++ rewrite (knn_sorted _ _ _ _ Hnn a b) in Hb; [discriminate| lia | lia].
        * rewrite (knn_best _ _ _ _ Hnn x (nth a nn 0)) in Hb; auto. discriminate.
      + intros Hxin. apply In_nth_firstn in Hxin as (b & Hb & Hbl & <-).
        destruct (Hnt (nth b nn 0) (nth a nn 0)) as [Hw|Hw].
        * eapply knn_range; eauto. apply Hin; lia.
        * eapply knn_range; eauto.
        * intros E. eapply (NoDup_nth nn 0) in E; [lia| eapply knn_nodup; eauto | lia | lia].
        * apply Hu, Hin. lia.
        * apply Hu, Hin. lia.
        * assumption.
        * exfalso. rewrite (knn_sorted _ _ _ _ Hnn b a) in Hw; [discriminate| lia | lia]. }
  pose proof (knn_len _ _ _ _ H1) as L1. pose proof (knn_len _ _ _ _ H2) as L2.
  apply (nth_ext _ _ 0 0); [lia|].
  intros a Ha. rewrite L1 in Ha.
  destruct (Nat.eq_dec (nth a nn1 0) (nth a nn2 0)) as [|Hne]; [assumption|]. exfalso.
  assert (R1 : nth a nn1 0 < m) by (apply (knn_range _ _ _ _ H1); apply nth_In; lia).
  assert (R2 : nth a nn2 0 < m) by (apply (knn_range _ _ _ _ H2); apply nth_In; lia).
  assert (U1 : us (nth a nn1 0) = true).
  { eapply (knn_list_usable _ _ _ nn1 us); eauto. apply nth_In; lia. }
  assert (U2 : us (nth a nn2 0) = true).
  { eapply (knn_list_usable _ _ _ nn2 us); eauto. apply nth_In; lia. }
  assert (K : forall x y, x < m -> y < m -> better x y = true ->
     count_if (fun z => better z x) m < count_if (fun z => better z y) m).
  { intros x y Hx Hy Hxy.
    assert (count_if (fun z => better z x) m + 1 <= count_if (fun z => better z x || (z =? x)) m).
    { pose proof (count_if_or_and (fun z => better z x) (fun z => z =? x) m) as E.
      rewrite count_if_eq1 in E by assumption.
      rewrite (count_if_ext (fun z => better z x && (z =? x)) (fun _ => false)) in E.
      - rewrite count_if_false in E. lia.
      - intros i Hi. destruct (Nat.eqb_spec i x) as [->|]; [|apply andb_false_r].
        rewrite Hir by assumption. reflexivity. }
    assert (count_if (fun z => better z x || (z =? x)) m <= count_if (fun z => better z y) m).
    { apply count_if_mono. intros i Hi E. apply orb_prop in E as [E|E].
      - eapply Htr; [ | | |exact E|exact Hxy]; assumption.
      - apply Nat.eqb_eq in E. now subst. }
    lia. }
  pose proof (G nn1 H1 a Ha) as E1. pose proof (G nn2 H2 a Ha) as E2.
  destruct (Hnt _ _ R1 R2 Hne U1 U2) as [Hb|Hb];
    apply K in Hb; auto; lia.
Qed.

Lemma knn_list_ext b1 b2 m k nn :
  (forall x y, x < m -> y < m -> b1 x y = b2 x y) ->
  knn_list b1 m k nn -> knn_list b2 m k nn.
Proof.
  intros E H. constructor; try (eapply H).
  - intros a b Hab Hb. rewrite <- E; [eapply H; eauto| |];
      (eapply knn_range; [exact H|]; apply nth_In; rewrite (knn_len _ _ _ _ H); lia).
  - intros x y Hx Hnx Hy. rewrite <- E; [eapply H; eauto|assumption|].
    eapply knn_range; eauto.
Qed.
