(** Lemmas about the class Hubness. *)
From Coq Require Import String.
From Coq Require Import ZArith List Arith Lia Bool Permutation.
From Verif Require Import Py Num Arr Sort Conc S_Neighbors P_Neighbors M_Hubness M_Dist M_KNN M_HubnessClass P_Hubness P_HubnessMain.
Import ListNotations.
Local Open Scope nat_scope.

(* ------------------------------------------------------------------ *)
(** ** Gini *)
Lemma sumZ_acc l : forall a, fold_left Z.add l a = (a + sumZ l)%Z.
Proof.
  unfold sumZ. induction l as [|x l IH]; intros a; cbn [fold_left]; [lia|].
  rewrite (IH (a + x)%Z), (IH (0 + x)%Z). lia.
Qed.
Lemma sumZ_cons x l : sumZ (x :: l) = (x + sumZ l)%Z.
Proof. unfold sumZ at 1. cbn [fold_left]. rewrite sumZ_acc. lia. Qed.
Lemma sumZ_app l1 l2 : sumZ (l1 ++ l2) = (sumZ l1 + sumZ l2)%Z.
Proof. unfold sumZ at 1. rewrite fold_left_app, !sumZ_acc. reflexivity. Qed.
Lemma sumZ_concat ll : sumZ (concat ll) = sumZ (map sumZ ll).
Proof. induction ll as [|l ll IH]; cbn [concat map]; [reflexivity|]. now rewrite sumZ_app, sumZ_cons, IH. Qed.
Lemma sumZ_nonneg l : (forall x, In x l -> (0 <= x)%Z) -> (0 <= sumZ l)%Z.
Proof.
  induction l as [|x l IH]; intros H; [now cbn|]. rewrite sumZ_cons.
  specialize (IH (fun y Hy => H y (or_intror Hy))). specialize (H x (or_introl eq_refl)). lia.
Qed.
Lemma for_sum (f : nat -> Z) n a : for_ n (fun i acc => (acc + f i)%Z) a = (a + sumZ (map f (seq 0 n)))%Z.
Proof.
  induction n as [|n IH]; [cbn; lia|]. rewrite for_S, IH, seq_S, map_app, sumZ_app. cbn [map]. rewrite sumZ_cons. cbn. lia.
Qed.
Lemma for_ext {A} n (f g : nat -> A -> A) s : (forall i s, f i s = g i s) -> for_ n f s = for_ n g s.
Proof. intros H. induction n as [|n IH]; [reflexivity|]. now rewrite !for_S, IH, H. Qed.
Lemma map_nth_seqZ {B} (f : Z -> B) l : map (fun i => f (nth i l 0%Z)) (seq 0 (length l)) = map f l.
Proof.
  induction l as [|x l IH]; [reflexivity|]. cbn [length seq map nth]. f_equal.
  rewrite <- seq_shift, map_map. exact IH.
Qed.

(** all ordered pairs *)
Definition pairsum (l : list Z) : Z :=
  fold_right Z.add 0%Z (map (fun p => Z.abs (fst p - snd p)) (list_prod l l)).

Lemma fold_right_sumZ l : fold_right Z.add 0%Z l = sumZ l.
Proof. induction l as [|x l IH]; [reflexivity|]. now rewrite sumZ_cons, <- IH. Qed.

Lemma list_prod_sum (f : Z -> Z -> Z) l1 l2 :
  sumZ (map (fun p => f (fst p) (snd p)) (list_prod l1 l2)) = sumZ (map (fun x => sumZ (map (f x) l2)) l1).
Proof.
  induction l1 as [|x l1 IH]; [reflexivity|]. cbn [list_prod map].
  rewrite map_app, sumZ_app, map_map, sumZ_cons, IH. reflexivity.
Qed.

Lemma pairsum_rows l : pairsum l = sumZ (map (fun x => sumZ (map (fun y => Z.abs (x - y)) l)) l).
Proof. unfold pairsum. rewrite fold_right_sumZ. exact (list_prod_sum (fun x y => Z.abs (x - y)) l l). Qed.

Lemma abs_sub_sym x y : Z.abs (x - y) = Z.abs (y - x).
Proof. lia. Qed.

Lemma gini_num_pairsum mode l : gini_num mode l = pairsum l.
Proof.
  rewrite pairsum_rows. unfold gini_num.
  destruct (_ || _)%bool; [|destruct (_ || _)%bool].
  - rewrite for_sum. rewrite (map_nth_seqZ (fun y => sumZ (map (fun x => Z.abs (x - y)) l))).
    rewrite Z.add_0_l. f_equal. apply map_ext. intros x. f_equal. apply map_ext. intros y. lia.
  - rewrite sumZ_concat, map_map. f_equal. apply map_ext. intros x. f_equal. apply map_ext. intros y. lia.
  - rewrite (for_ext _ _ (fun i acc => (acc + sumZ (map (fun y => Z.abs (nth i l 0%Z - y)) l))%Z)).
    + rewrite for_sum, Z.add_0_l. now rewrite (map_nth_seqZ (fun x => sumZ (map (fun y => Z.abs (x - y)) l))).
    + intros i s. rewrite for_sum. now rewrite (map_nth_seqZ (fun y => Z.abs (nth i l 0%Z - y))).
Qed.

Lemma sumZ_map_add {A} (f g : A -> Z) l : sumZ (map (fun x => (f x + g x)%Z) l) = (sumZ (map f l) + sumZ (map g l))%Z.
Proof. induction l as [|x l IH]; [reflexivity|]. cbn [map]. rewrite !sumZ_cons, IH. lia. Qed.

Lemma pairsum_cons x l : pairsum (x :: l) = (2 * sumZ (map (fun y => Z.abs (x - y)) l) + pairsum l)%Z.
Proof.
  rewrite !pairsum_rows. cbn [map]. rewrite !sumZ_cons.
  rewrite (map_ext (fun x0 => sumZ (Z.abs (x0 - x) :: map (fun y => Z.abs (x0 - y)) l))
             (fun x0 => (Z.abs (x0 - x) + sumZ (map (fun y => Z.abs (x0 - y)) l))%Z))
    by (intros; now rewrite sumZ_cons).
  rewrite sumZ_map_add. rewrite (map_ext (fun x0 => Z.abs (x0 - x)) (fun y => Z.abs (x - y))) by (intros; lia).
  lia.
Qed.

Lemma pairsum_bound l : (forall x, In x l -> (0 <= x)%Z) ->
  (0 <= pairsum l /\ (l <> [] -> pairsum l <= 2 * (Z.of_nat (length l) - 1) * sumZ l))%Z.
Proof.
  induction l as [|x l IH]; intros H; [cbn; split; [lia|congruence]|].
  destruct IH as (I0 & I1); [intros y Hy; apply H; now right|].
  rewrite pairsum_cons, sumZ_cons.
  assert (Hx : (0 <= x)%Z) by (apply H; now left).
  assert (B : (0 <= sumZ (map (fun y => Z.abs (x - y)) l) <= Z.of_nat (length l) * x + sumZ l)%Z).
  { assert (Hl : forall y, In y l -> (0 <= y)%Z) by (intros y Hy; apply H; now right).
    clear - Hx Hl. induction l as [|y l IH]; [cbn; lia|].
    cbn [map length]. rewrite !sumZ_cons. specialize (IH (fun z Hz => Hl z (or_intror Hz))).
    specialize (Hl y (or_introl eq_refl)). lia. }
  split; [lia|]. intros _. cbn [length]. rewrite Nat2Z.inj_succ.
  destruct l as [|z l'].
  - cbn in *. lia.
  - assert (NE : z :: l' <> []) by discriminate. specialize (I1 NE).
    set (n := Z.of_nat (length (z :: l'))) in *. set (s := sumZ (z :: l')) in *.
    nia.
Qed.

Lemma pairsum_zero l : pairsum l = 0%Z <-> forall x y, In x l -> In y l -> x = y.
Proof.
  split.
  - rewrite pairsum_rows. intros H x y Hx Hy.
    assert (Z0 : forall (f : Z -> Z) m, (forall a, In a m -> (0 <= f a)%Z) -> sumZ (map f m) = 0%Z -> forall a, In a m -> f a = 0%Z).
    { intros f m. induction m as [|a m IH]; intros Hf Hs b Hb; [destruct Hb|].
      cbn [map] in Hs. rewrite sumZ_cons in Hs.
      assert (0 <= sumZ (map f m))%Z.
      { apply sumZ_nonneg. intros z Hz. apply in_map_iff in Hz as (c & <- & Hc). apply Hf. now right. }
      pose proof (Hf a (or_introl eq_refl)). destruct Hb as [<-|Hb]; [lia|]. apply IH; auto; [|lia].
      intros c Hc. apply Hf. now right. }
    assert (NN : forall a, In a l -> (0 <= sumZ (map (fun y => Z.abs (a - y)) l))%Z).
    { intros a _. apply sumZ_nonneg. intros z Hz. apply in_map_iff in Hz as (c & <- & Hc). lia. }
    pose proof (Z0 _ l NN H x Hx) as H1. cbn beta in H1.
    pose proof (Z0 (fun y => Z.abs (x - y)) l (fun _ _ => Z.abs_nonneg _) H1 y Hy) as H2. cbn beta in H2. lia.
  - intros H. rewrite pairsum_rows.
    assert (E : forall (f : Z -> Z) m, (forall a, In a m -> f a = 0%Z) -> sumZ (map f m) = 0%Z).
    { intros f m. induction m as [|a m IH]; intros Hf; [reflexivity|]. cbn [map]. rewrite sumZ_cons, IH, Hf; auto.
      - now left. - intros b Hb. apply Hf. now right. }
    apply E. intros x Hx. apply E. intros y Hy. rewrite (H x y Hx Hy). lia.
Qed.

(* ------------------------------------------------------------------ *)
(** ** one row *)
Lemma skipn_slice {A} (l : list A) s k : slice (firstn (s + k) l) s (s + k) = slice l s (s + k).
Proof.
  unfold slice. replace (s + k - s) with k by lia.
  rewrite skipn_firstn_comm, firstn_firstn. f_equal. lia.
Qed.

Lemma skipn_slice_all {A} (l : list A) s k : length l = s + k -> slice l s (s + k) = skipn s l.
Proof.
  intros H. unfold slice. apply firstn_all2. rewrite skipn_length. lia.
Qed.

Section Rows.
  Context {V : Type} {N : Num V} {toX : V -> xr} (CL : CmpLaws V N toX).
  Variable rdist : nat -> (nat -> V) -> (nat -> V) -> V.
  Variable argpart : list V -> list nat -> list nat.
  Hypothesis AP : argpart_ok argpart.

  Definition rp_wf (m : nat) (rp : option (list nat)) : Prop :=
    match rp with None => True | Some rp => Permutation rp (seq 0 m) end.

  Lemma seq_lt k m : k <= m -> forall x, In x (seq 0 k) -> x < m.
  Proof. intros H x Hx. apply in_seq in Hx. lia. Qed.

  Lemma np_argpart_range (d : list V) k : k <= length d ->
    np_argpartition argpart d (zarange 0 (Z.of_nat k)) = Ok (argpart d (seq 0 k)).
  Proof.
    intros H. unfold np_argpartition.
    rewrite zarange_legal by lia.
    pose proof (zarange_norm (length d) 0 k) as E. cbn [Nat.add Z.of_nat] in E. rewrite E by lia. reflexivity.
  Qed.
  Lemma np_argpart_bad (d : list V) k : length d < k ->
    np_argpartition argpart d (zarange 0 (Z.of_nat k)) = Raise ValueError.
  Proof.
    intros H. unfold np_argpartition.
    destruct (kth_legal (length d) (zarange 0 (Z.of_nat k))) eqn:E; [|reflexivity].
    apply kth_legal_spec with (z := Z.of_nat (length d)) in E; [lia|]. apply In_zarange. lia.
  Qed.

  Lemma row_nn_spec s k rp (d : list V) : rp_wf (length d) rp -> s + k <= length d ->
    exists L, knn_list (fun x y => nlt (vat d x) (vat d y)) (length d) (s + k) L /\
      row_nn argpart (zarange 0 (Z.of_nat (s + k))) s (s + k) rp d = Ok (skipn s L).
  Proof.
    intros Hrp H. unfold row_nn. destruct rp as [rp|].
    - cbn in Hrp. pose proof (perm_seq_length _ _ Hrp) as Lrp.
      assert (L2 : length (take nnan d rp) = length d) by (unfold take; now rewrite map_length).
      rewrite np_argpart_range by lia. cbn [bind].
      set (p := argpart (take nnan d rp) (seq 0 (s + k))).
      assert (Hp : is_argpart (map (vat d) rp) (seq 0 (s + k)) p).
      { apply AP. intros x Hx. rewrite map_length, Lrp. apply in_seq in Hx. lia. }
      pose proof (argpart_shuffle d (seq 0 (s + k)) rp p Hrp (seq_lt _ _ H) Hp) as Hq.
      exists (firstn (s + k) (map (fun j => nth j rp 0) p)). split; [now apply (argpart_knn_dist CL)|].
      f_equal. rewrite <- (skipn_slice_all _ s k).
      + rewrite skipn_slice. unfold take, slice. now rewrite skipn_map, firstn_map.
      + rewrite firstn_length, map_length. destruct Hq as (Hq & _). apply perm_seq_length in Hq.
        rewrite map_length in Hq. lia.
    - rewrite np_argpart_range by lia. cbn [bind].
      assert (Hp : is_argpart d (seq 0 (s + k)) (argpart d (seq 0 (s + k)))).
      { apply AP. apply (seq_lt _ _ H). }
      exists (firstn (s + k) (argpart d (seq 0 (s + k)))). split; [now apply (argpart_knn_dist CL)|].
      f_equal. rewrite <- (skipn_slice_all _ s k); [now rewrite skipn_slice|].
      rewrite firstn_length. destruct Hp as (Hq & _). apply perm_seq_length in Hq. lia.
  Qed.

  Lemma row_nn_bad s k rp (d : list V) : rp_wf (length d) rp -> length d < s + k ->
    row_nn argpart (zarange 0 (Z.of_nat (s + k))) s (s + k) rp d = Raise ValueError.
  Proof.
    intros Hrp H. unfold row_nn. destruct rp as [rp|].
    - pose proof (perm_seq_length _ _ Hrp) as Lrp.
      rewrite np_argpart_bad; [reflexivity|]. unfold take. rewrite map_length. lia.
    - rewrite np_argpart_bad by assumption. reflexivity.
  Qed.

  Lemma row_nn_ok s k rp (d : list V) nn : rp_wf (length d) rp ->
    row_nn argpart (zarange 0 (Z.of_nat (s + k))) s (s + k) rp d = Ok nn ->
    s + k <= length d /\
    exists L, knn_list (fun x y => nlt (vat d x) (vat d y)) (length d) (s + k) L /\ nn = skipn s L.
  Proof.
    intros Hrp H. destruct (le_lt_dec (s + k) (length d)) as [Hk|Hk].
    - split; [assumption|]. destruct (row_nn_spec s k rp d Hrp Hk) as (L & HL & E).
      rewrite E in H. injection H as <-. eauto.
    - rewrite row_nn_bad in H by assumption. discriminate.
  Qed.

  Lemma nodup_app_r (a b : list nat) : NoDup (a ++ b) -> NoDup b.
  Proof. induction a as [|x a IH]; cbn; intros H; [assumption|]. inversion H; subst. auto. Qed.
  Lemma skipn_knn_facts better m s k L : knn_list better m (s + k) L ->
    length (skipn s L) = k /\ NoDup (skipn s L) /\ forall x, In x (skipn s L) -> x < m.
  Proof.
    intros [K1 K2 K3 _ _]. rewrite <- (firstn_skipn s L) in K2. repeat split.
    - rewrite skipn_length. lia.
    - now apply nodup_app_r in K2.
    - intros x Hx. apply K3. rewrite <- (firstn_skipn s L). apply in_or_app. now right.
  Qed.

  (* ---------------------------------------------------------------- *)
  (** ** batches *)
  Variables (X Y : arr2 V) (metric : string) (s k : nat).
  Notation kth := (zarange 0 (Z.of_nat (s + k))).
  Notation bnn := (batch_nn rdist argpart X Y metric kth s (s + k)).

  Definition row_val (i : nat) : list nat :=
    match row_nn argpart kth s (s + k) None (vec_row rdist X Y i) with Ok l => l | Raise _ => [] end.

  Definition row_good (i : nat) : bool :=
    forallb (fun f => nisfin (at2 X i f)) (seq 0 (ncol X)) &&
    is_ok (row_nn argpart kth s (s + k) None (vec_row rdist X Y i)).
  Definition all_good : bool :=
    negb (String.eqb metric "cosine") && negb (ncol X =? 0) && is_ok (check_array Y).

  Definition bad_exc : exc := if String.eqb metric "cosine" then TypeError else ValueError.

  Lemma row_nn_exc i e :
    row_nn argpart kth s (s + k) None (vec_row rdist X Y i) = Raise e -> e = ValueError.
  Proof.
    destruct (le_lt_dec (s + k) (length (vec_row rdist X Y i))) as [H|H].
    - destruct (row_nn_spec s k None (vec_row rdist X Y i) I H) as (L & _ & E). rewrite E. discriminate.
    - rewrite row_nn_bad by (try exact I; assumption). now intros [= <-].
  Qed.

  Lemma mapM_exc {A B} (f : A -> result B) l e : (forall a e, In a l -> f a = Raise e -> e = ValueError) ->
    mapM f l = Raise e -> e = ValueError.
  Proof.
    induction l as [|a l IH]; cbn; intros H E; [discriminate|].
    destruct (f a) eqn:Ea; cbn in E.
    - destruct (mapM f l) eqn:El; cbn in E; [discriminate|]. injection E as ->. apply IH; [|reflexivity]. intros b e' Hb; apply H; now right.
    - injection E as ->. eapply H; [now left|eassumption].
  Qed.

  Lemma batch_nn_eq rows :
    bnn rows = if all_good && negb (length rows =? 0) && forallb row_good rows
               then Ok (map row_val rows) else Raise bad_exc.
  Proof.
    unfold batch_nn, all_good, bad_exc. destruct (String.eqb metric "cosine"); [reflexivity|].
    cbn [negb andb]. unfold check_array at 1. cbn [nrow ncol at2].
    destruct (length rows =? 0) eqn:E0.
    { cbn [orb guard bind]. now rewrite andb_false_r. }
    destruct (ncol X =? 0) eqn:E1; [reflexivity|].
    assert (Efin : forallb (fun i => forallb (fun f => nisfin (at2 X (nth i rows 0) f)) (seq 0 (ncol X))) (seq 0 (length rows))
                   = forallb (fun i => forallb (fun f => nisfin (at2 X i f)) (seq 0 (ncol X))) rows).
    { clear. apply eq_true_iff_eq. rewrite !forallb_forall. split; intros H i Hi.
      - apply (In_nth _ _ 0) in Hi as (a & Ha & <-). apply (H a). apply in_seq. lia.
      - apply in_seq in Hi. apply H. apply nth_In. lia. }
    rewrite Efin. clear Efin. cbn [orb negb andb]. unfold row_good.
    destruct (forallb (fun i => forallb (fun f => nisfin (at2 X i f)) (seq 0 (ncol X))) rows) eqn:Ef; cbn [negb guard bind].
    2:{ rewrite andb_true_r. destruct (is_ok (check_array Y)); [|reflexivity]. cbn [andb].
        destruct (forallb (fun i => _ && _) rows) eqn:Eg; [|reflexivity]. exfalso.
        assert (forallb (fun i => forallb (fun f => nisfin (at2 X i f)) (seq 0 (ncol X))) rows = true); [|congruence].
        rewrite forallb_forall in *. intros i Hi. apply Eg in Hi. now apply andb_prop in Hi as (? & _). }
    destruct (check_array Y) as [[]|e] eqn:Ey; cbn [bind is_ok andb].
    2:{ unfold check_array, guard in Ey. destruct (_ || _)%bool in Ey; [|discriminate]. now injection Ey as <-. }
    destruct (forallb (fun i => _ && _) rows) eqn:Eg.
    - apply mapM_ok_map. intros i Hi. rewrite forallb_forall in Eg. apply Eg in Hi.
      apply andb_prop in Hi as (_ & Hi). unfold row_val.
      destruct (row_nn _ _ _ _ _ _); [reflexivity|discriminate].
    - destruct (mapM _ rows) as [r|e] eqn:Em.
      + exfalso. assert (forallb (fun i => forallb (fun f => nisfin (at2 X i f)) (seq 0 (ncol X)) &&
          is_ok (row_nn argpart kth s (s + k) None (vec_row rdist X Y i))) rows = true); [|congruence].
        rewrite forallb_forall in *. intros i Hi. rewrite (Ef i Hi). cbn [andb].
        destruct (In_nth _ _ 0 Hi) as (a & Ha & <-).
        rewrite (mapM_nth _ _ _ a 0 [] Em Ha). reflexivity.
      + f_equal. eapply mapM_exc; [|exact Em]. intros a e' _. apply row_nn_exc.
  Qed.

  Lemma row_val_len i : row_good i = true -> length (row_val i) = k.
  Proof.
    unfold row_good, row_val. intros H. apply andb_prop in H as (_ & H).
    destruct (row_nn _ _ _ _ _ _) as [l|] eqn:E; [|discriminate].
    apply row_nn_ok in E as (_ & L & HL & ->); [|exact I]. now apply skipn_knn_facts in HL as (? & _).
  Qed.

  Lemma In_batch_rows b n i j : In j (batch_rows b n i) <-> i * b <= j /\ j < (i + 1) * b /\ j < n.
  Proof. unfold batch_rows. rewrite in_seq. lia. Qed.

  Lemma n_batches_spec n b : 1 <= b -> exists nb, n_batches n (Z.of_nat b) = Ok nb /\
    (forall i, i < nb <-> i * b < n).
  Proof.
    intros Hb. unfold n_batches. destruct (Z.eqb_spec (Z.of_nat b) 0); [lia|].
    eexists. split; [reflexivity|]. intros i.
    pose proof (Z.div_mod (- Z.of_nat n) (Z.of_nat b)) as E.
    pose proof (Z.mod_pos_bound (- Z.of_nat n) (Z.of_nat b)) as B.
    set (q := (- Z.of_nat n / Z.of_nat b)%Z) in *. set (r := (- Z.of_nat n mod Z.of_nat b)%Z) in *.
    split; intros H; nia.
  Qed.

  Lemma batch_cover n b nb : 1 <= b -> (forall i, i < nb <-> i * b < n) ->
    forall j, j < n <-> exists i, i < nb /\ In j (batch_rows b n i).
  Proof.
    intros Hb Hnb j. split.
    - intros Hj. exists (j / b). pose proof (Nat.div_mod j b ltac:(lia)). pose proof (Nat.mod_upper_bound j b ltac:(lia)).
      rewrite In_batch_rows, Hnb. nia.
    - intros (i & _ & H). apply In_batch_rows in H. lia.
  Qed.

  Lemma batch_nonempty n b i : i * b < n -> 1 <= b -> length (batch_rows b n i) <> 0.
  Proof. intros. unfold batch_rows. rewrite seq_length. lia. Qed.

  (** all batches succeed iff the rows taken at once do *)
  Lemma batches_good n b nb : 0 < n -> 1 <= b -> (forall i, i < nb <-> i * b < n) ->
    bnn (seq 0 n) = Ok (map row_val (seq 0 n)) /\ forallb row_good (seq 0 n) = true /\
      (forall i, i < nb -> bnn (batch_rows b n i) = Ok (map row_val (batch_rows b n i)))
    \/ bnn (seq 0 n) = Raise bad_exc /\ exists i, i < nb /\ bnn (batch_rows b n i) = Raise bad_exc.
  Proof.
    intros Hn Hb Hnb. rewrite batch_nn_eq, seq_length.
    destruct (Nat.eqb_spec n 0); [lia|]. cbn [negb]. rewrite andb_true_r.
    destruct (all_good && forallb row_good (seq 0 n)) eqn:E.
    - left. apply andb_prop in E as (E1 & E2). repeat split; [assumption|]. intros i Hi.
      rewrite batch_nn_eq, E1. apply Hnb in Hi.
      destruct (Nat.eqb_spec (length (batch_rows b n i)) 0) as [H|_]; [now apply batch_nonempty in H|].
      cbn [negb andb].
      replace (forallb row_good (batch_rows b n i)) with true; [reflexivity|]. symmetry.
      rewrite forallb_forall in *. intros j Hj. apply E2. apply in_seq. apply In_batch_rows in Hj. lia.
    - right. split; [reflexivity|].
      destruct all_good eqn:E1; cbn [andb] in E.
      + destruct (forallb (fun i => forallb row_good (batch_rows b n i)) (seq 0 nb)) eqn:E3.
        * exfalso. assert (forallb row_good (seq 0 n) = true); [|congruence].
          rewrite forallb_forall in *. intros j Hj. apply in_seq in Hj.
          destruct (proj1 (batch_cover n b nb Hb Hnb j)) as (i & Hi & Hin); [lia|].
          specialize (E3 i). rewrite forallb_forall in E3. apply E3; [apply in_seq; lia|assumption].
        * assert (G : exists i, In i (seq 0 nb) /\ forallb row_good (batch_rows b n i) = false).
          { clear -E3. induction (seq 0 nb) as [|i l IH]; [discriminate|]. cbn in E3.
            destruct (forallb row_good (batch_rows b n i)) eqn:E; [|eauto with datatypes].
            destruct (IH E3) as (i' & H1 & H2). eauto with datatypes. }
          destruct G as (i & Hi & Eg). exists i. apply in_seq in Hi. split; [lia|].
          rewrite batch_nn_eq, Eg, andb_false_r. reflexivity.
      + exists 0. split; [apply Hnb; lia|]. rewrite batch_nn_eq, E1. reflexivity.
  Qed.

  Lemma bnn_exc rows e : bnn rows = Raise e -> e = bad_exc.
  Proof. rewrite batch_nn_eq. destruct (_ && _)%bool; [discriminate|]. now intros [= <-]. Qed.

  (* ---------------------------------------------------------------- *)
  (** ** the whole search *)
  Lemma set_batch_spec b n i nn (M : arr2 nat) : ncol M = k ->
    nrow (set_batch b n i nn M) = nrow M /\ ncol (set_batch b n i nn M) = k /\
    forall j c, c < k ->
      at2 (set_batch b n i nn M) j c =
      if (i * b <=? j) && (j <? Nat.min ((i + 1) * b) n) then nth c (nth (j - i * b) nn []) 0 else at2 M j c.
  Proof.
    intros HM. unfold set_batch. set (r := batch_rows b n i).
    assert (G : forall q, q <= length r ->
      let M' := for_ q (fun a M => setrow M (nth a r 0) 0 (ncol M) (fun c => nth c (nth a nn []) 0)) M in
      nrow M' = nrow M /\ ncol M' = k /\ forall j c, c < k ->
        at2 M' j c = if (i * b <=? j) && (j <? i * b + q) then nth c (nth (j - i * b) nn []) 0 else at2 M j c).
    { induction q as [|q IH]; intros Hq.
      - cbv zeta. rewrite for_0. repeat split; auto. intros j c _. destruct (Nat.leb_spec (i * b) j), (Nat.ltb_spec j (i * b + 0)); cbn [andb]; try lia; reflexivity.
      - rewrite for_S. destruct IH as (I1 & I2 & I3); [lia|]. cbv zeta in *.
        set (M' := for_ q _ M) in *. cbn [setrow nrow ncol at2]. repeat split; auto.
        intros j c Hc. rewrite I2, (I3 j c Hc).
        assert (Er : nth q r 0 = i * b + q).
        { unfold r, batch_rows in *. rewrite seq_length in Hq. now rewrite seq_nth by lia. }
        rewrite Er. destruct (Nat.eqb_spec j (i * b + q)).
        + destruct (Nat.leb_spec 0 c), (Nat.ltb_spec c k), (Nat.leb_spec (i * b) j), (Nat.ltb_spec j (i * b + S q)); try lia.
          cbn [andb]. do 2 f_equal. lia.
        + cbn [andb]. destruct (Nat.leb_spec (i * b) j), (Nat.ltb_spec j (i * b + q)), (Nat.ltb_spec j (i * b + S q)); cbn [andb]; try lia; reflexivity. }
    destruct (G (length r) (le_n _)) as (G1 & G2 & G3). cbv zeta in *.
    repeat split; auto. intros j c Hc. rewrite (G3 j c Hc).
    unfold r, batch_rows. rewrite seq_length.
    destruct (Nat.leb_spec (i * b) j), (Nat.ltb_spec j (i * b + (Nat.min ((i + 1) * b) n - i * b))),
      (Nat.ltb_spec j (Nat.min ((i + 1) * b) n)); cbn [andb]; try lia; reflexivity.
  Qed.

  Lemma nth_row_val_batch b n i j : In j (batch_rows b n i) ->
    nth (j - i * b) (map row_val (batch_rows b n i)) [] = row_val j.
  Proof.
    intros H. pose proof H as H'. apply In_batch_rows in H'.
    assert (L : j - i * b < length (batch_rows b n i)) by (unfold batch_rows; rewrite seq_length; lia).
    rewrite (nth_indep _ [] (row_val 0)) by (now rewrite map_length).
    rewrite map_nth. f_equal. unfold batch_rows in *. rewrite seq_length in L. rewrite seq_nth by lia. lia.
  Qed.

  Lemma rows_from_cells n (A : nat -> nat -> nat) : forallb row_good (seq 0 n) = true ->
    (forall j c, j < n -> c < k -> A j c = nth c (row_val j) 0) ->
    map (fun j => map (A j) (seq 0 k)) (seq 0 n) = map row_val (seq 0 n).
  Proof.
    intros Hg HA. apply map_ext_in. intros j Hj. rewrite forallb_forall in Hg.
    pose proof (row_val_len j (Hg j Hj)) as L. apply in_seq in Hj.
    apply (nth_ext _ _ 0 0); [now rewrite map_length, seq_length|].
    intros c Hc. rewrite map_length, seq_length in Hc. rewrite nth_map_seq by assumption. apply HA; lia.
  Qed.

  Lemma In_batch_task b n i nn c v : In (c, v) (batch_task b n k i nn) ->
    exists a, a < length (batch_rows b n i) /\ snd c < k /\
      fst c = nth a (batch_rows b n i) 0 /\ v = nth (snd c) (nth a nn []) 0.
  Proof.
    unfold batch_task. intros H. apply in_concat in H as (t & Ht & H).
    apply in_map_iff in Ht as (a & <- & Ha). apply in_map_iff in H as (c' & E & Hc).
    apply in_seq in Ha. apply in_seq in Hc. injection E as <- <-. exists a. cbn. repeat split; lia.
  Qed.
  Lemma In_batch_task_intro b n i nn a c : a < length (batch_rows b n i) -> c < k ->
    In ((nth a (batch_rows b n i) 0, c), nth c (nth a nn []) 0) (batch_task b n k i nn).
  Proof.
    intros Ha Hc. unfold batch_task. apply in_concat.
    exists (map (fun c => ((nth a (batch_rows b n i) 0, c), nth c (nth a nn []) 0)) (seq 0 k)). split.
    - apply in_map_iff. exists a. split; [reflexivity|]. apply in_seq. lia.
    - apply in_map_iff. exists c. split; [reflexivity|]. apply in_seq. lia.
  Qed.

  Lemma k_neighbors_det (bs nj : Z) r : (1 <= bs)%Z ->
    k_neighbors rdist argpart X Y metric k kth s (s + k) bs nj r ->
    r = if nrow X =? 0 then Ok [] else bnn (seq 0 (nrow X)).
  Proof.
    intros Hbs H. set (b := Z.to_nat bs).
    destruct (n_batches_spec (nrow X) b) as (nb & Enb & Hnb); [lia|].
    assert (Eb : Z.of_nat b = bs) by lia. rewrite Eb in Enb.
    assert (Hb : 1 <= b) by lia.
    assert (NB : forall nb', n_batches (nrow X) bs = Ok nb' -> nb' = nb) by (intros nb' E; rewrite Enb in E; now injection E).
    (* the results of the batches *)
    assert (MB : forall nns, mapM (fun i => bnn (batch_rows b (nrow X) i)) (seq 0 nb) = Ok nns ->
              (forall i, i < nb -> bnn (batch_rows b (nrow X) i) = Ok (map row_val (batch_rows b (nrow X) i))) ->
              forall i, i < nb -> nth i nns [] = map row_val (batch_rows b (nrow X) i)).
    { intros nns E HB i Hi. assert (Hi' : i < length (seq 0 nb)) by (now rewrite seq_length).
      pose proof (mapM_nth _ _ _ i 0 [] E Hi') as E'. rewrite seq_nth in E' by assumption. cbn [Nat.add] in E'.
      rewrite HB in E' by assumption. now injection E'. }
    remember (nrow X) as n eqn:En.
    destruct H as [H0|nb' HJ E|nb' i e HJ E Hi He|nb' nns buf HJ E Em Hrun]; rewrite <- ?En in *.
    - lia.
    - apply NB in E. subst nb'. fold b. cbv zeta.
      destruct (Nat.eqb_spec n 0) as [E0|E0].
      { assert (nb = 0) by (destruct nb; [reflexivity|]; pose proof (proj1 (Hnb 0)); lia). subst nb n. rewrite E0. reflexivity. }
      destruct (batches_good n b nb) as [(B1 & B2 & B3)|(B1 & i & Hi & B3)]; auto; [lia| |].
      + rewrite B1.
        assert (Em : exists nns, mapM (fun i => bnn (batch_rows b n i)) (seq 0 nb) = Ok nns).
        { exists (map (fun i => map row_val (batch_rows b n i)) (seq 0 nb)). apply mapM_ok_map.
          intros i Hi. apply in_seq in Hi. apply B3. lia. }
        destruct Em as (nns & Em). rewrite Em. cbn [bind]. f_equal. unfold read2.
        assert (Loop : forall q, q <= nb ->
          let M := for_ q (fun i M => set_batch b n i (nth i nns []) M) (full2 n k 0) in
          ncol M = k /\ forall j c, c < k -> j < n -> j < q * b -> at2 M j c = nth c (row_val j) 0).
        { induction q as [|q IH]; intros Hq; [cbn; split; [reflexivity|lia]|].
          rewrite for_S. destruct IH as (I1 & I2); [lia|]. cbv zeta in *. set (M := for_ q _ _) in *.
          destruct (set_batch_spec b n q (nth q nns []) M I1) as (_ & S2 & S3). split; [assumption|].
          intros j c Hc Hj Hjq. rewrite S3 by assumption.
          destruct (Nat.leb_spec (q * b) j), (Nat.ltb_spec j (Nat.min ((q + 1) * b) n)); cbn [andb]; try lia.
          - rewrite (MB nns Em B3) by lia. rewrite nth_row_val_batch; [reflexivity|]. apply In_batch_rows. lia.
          - apply I2; lia. }
        destruct (Loop nb (le_n _)) as (_ & L2). cbv zeta in L2. apply rows_from_cells; [assumption|].
        intros j c Hj Hc. apply L2; auto.
        destruct (proj1 (batch_cover n b nb Hb Hnb j) Hj) as (i & Hi & Hin). apply In_batch_rows in Hin. nia.
      + rewrite B1. destruct (mapM (fun i => bnn (batch_rows b n i)) (seq 0 nb)) as [nns|e] eqn:Em; cbn [bind].
        * exfalso. assert (Hi' : i < length (seq 0 nb)) by (now rewrite seq_length).
          pose proof (mapM_nth _ _ _ i 0 [] Em Hi') as E'. rewrite seq_nth in E' by assumption.
          cbn [Nat.add] in E'. congruence.
        * apply mapM_raise in Em as (x & _ & Em). apply bnn_exc in Em. now subst e.
    - apply NB in E. subst nb'. fold b in He.
      destruct (Nat.eqb_spec n 0) as [E0|E0]; [apply Hnb in Hi; lia|].
      destruct (batches_good n b nb) as [(B1 & B2 & B3)|(B1 & i' & Hi' & B3)]; auto; [lia| |].
      + rewrite (B3 i Hi) in He. discriminate.
      + rewrite B1. f_equal. eapply bnn_exc; eauto.
    - apply NB in E. subst nb'. fold b in Em, Hrun.
      destruct (Nat.eqb_spec n 0) as [E0|E0]; [now rewrite E0|].
      destruct (batches_good n b nb) as [(B1 & B2 & B3)|(B1 & i & Hi & B3)]; auto; [lia| |].
      + rewrite B1. f_equal. apply (rows_from_cells n (fun j c => buf (j, c))); [assumption|].
        intros j c Hj Hc.
        pose proof (MB nns Em B3) as Hn.
        edestruct (pool_run_fun cell_eq cell_eq_spec (fun _ => 0) buf) with (f := fun p : nat * nat => nth (snd p) (row_val (fst p)) 0) (2 := Hrun) (c := (j, c)) as (P1 & _).
        { intros t p v Ht Hp. apply in_map_iff in Ht as (i & <- & Hi). apply in_seq in Hi.
          apply In_batch_task in Hp as (a & Ha & Hc' & Ef & ->). rewrite Hn by lia. f_equal.
          rewrite Ef, <- (nth_row_val_batch b n i); [|now apply nth_In].
          f_equal. unfold batch_rows in *. rewrite seq_length in Ha. rewrite seq_nth by lia. lia. }
        cbn [fst snd] in P1. apply P1.
        destruct (proj1 (batch_cover n b nb Hb Hnb j) Hj) as (i & Hi & Hin).
        exists (batch_task b n k i (nth i nns [])). split.
        * apply in_map_iff. exists i. split; [reflexivity|]. apply in_seq. lia.
        * pose proof (In_nth _ _ 0 Hin) as (a & Ha & Ea).
          replace (nth c (row_val j) 0) with (nth c (nth a (nth i nns []) []) 0).
          -- rewrite <- Ea at 1. now apply In_batch_task_intro.
          -- rewrite Hn by assumption. f_equal. rewrite <- (nth_row_val_batch b n i j Hin). f_equal.
             rewrite <- Ea. unfold batch_rows in *. rewrite seq_length in Ha. rewrite seq_nth by lia. lia.
      + exfalso. assert (Hi' : i < length (seq 0 nb)) by (now rewrite seq_length).
        pose proof (mapM_nth _ _ _ i 0 [] Em Hi') as E'. rewrite seq_nth in E' by assumption.
        cbn [Nat.add] in E'. congruence.
  Qed.
End Rows.
