(** mp_dissim: the outcome does not depend on the schedule; edges of equal mass. *)
From Coq Require Import String.
From Coq Require Import ZArith List Arith Lia Bool Permutation.
From Verif Require Import Py Num Arr Sort Conc M_IO M_SNN M_MPDissim P_DSL P_MPDissim.
Import ListNotations.
Local Open Scope py_scope.

Lemma cell3_eq_spec a b : cell3_eq a b = true <-> a = b.
Proof.
  destruct a as [a1 a2], b as [b1 b2]. unfold cell3_eq. cbn [fst snd]. rewrite andb_true_iff, Nat.eqb_eq, celleq_spec.
  split; [intros [-> ->]; reflexivity|intros E; injection E as -> ->; auto].
Qed.
Lemma binc_eq_spec a b : binc_eq a b = true <-> a = b.
Proof.
  destruct a as [a1 a2], b as [b1 b2]. unfold binc_eq. cbn [fst snd]. rewrite andb_true_iff, eqb_true_iff, celleq_spec.
  split; [intros [-> ->]; reflexivity|intros E; injection E as -> ->; auto].
Qed.

Section Outcome.
  Context {V : Type} {N : Num V}.
  Variable vpow : V -> V -> V.
  Variable part : list V -> list nat -> list V.

  (** the value of R_bins after the first map *)
  Definition R_of (h : list nat) (b c : nat) : nat := if b <=? c then cum_at h b c else cum_at h c b.

  Lemma r_pool nb d (h : nat -> list nat) Rb :
    pool_run cell3_eq (fun _ => 0) (map (fun i => r_task nb (h i) i) (seq 0 d)) Rb ->
    forall i b c, i < d -> b < nb -> c < nb -> Rb (i, (b, c)) = R_of (h i) b c.
  Proof.
    intros H i b c Hi Hb Hc.
    assert (F : forall t (x : nat * (nat * nat)) v, In t (map (fun i => r_task nb (h i) i) (seq 0 d)) -> In (x, v) t ->
        v = R_of (h (fst x)) (fst (snd x)) (snd (snd x))).
    { intros t x v Ht Hx. apply in_map_iff in Ht as (i' & <- & _). unfold r_task in Hx. apply in_app_or in Hx as [Hx|Hx];
        apply in_flat_map in Hx as (b' & Hb' & Hx); apply in_map_iff in Hx as (c' & E & Hc'); injection E as <- <-; cbn [fst snd]; unfold R_of.
      - apply in_seq in Hc'. replace (b' <=? c') with true by (symmetry; apply Nat.leb_le; lia). reflexivity.
      - destruct (Nat.leb_spec b' c'), (Nat.ltb_spec c' b'); lia. }
    destruct (pool_run_fun cell3_eq cell3_eq_spec _ _ _ (fun x => R_of (h (fst x)) (fst (snd x)) (snd (snd x))) F H (i, (b, c))) as (A & _).
    cbn [fst snd] in A. apply A. exists (r_task nb (h i) i). split; [apply in_map_iff; exists i; split; [reflexivity|apply in_seq; lia]|].
    unfold r_task. apply in_or_app. right. apply in_flat_map. exists b. split; [apply in_seq; lia|]. apply in_map_iff. exists c.
    split; [|apply in_seq; lia]. f_equal. unfold R_of. destruct (Nat.leb_spec b c), (Nat.ltb_spec c b); lia.
  Qed.

  Lemma bin_pool nb d (X Y : arr2 V) (E : nat -> list V) bb :
    pool_run binc_eq (fun _ => 0) (map (fun i => bin_task nb X Y (E i) i) (seq 0 d)) bb ->
    forall i, i < d -> (forall x, x < nrow X -> bb (true, (i, x)) = mpd_bin nb (E i) (at2 X x i)) /\
                       (forall y, y < nrow Y -> bb (false, (i, y)) = mpd_bin nb (E i) (at2 Y y i)).
  Proof.
    intros H i Hi.
    set (f := fun x : bool * (nat * nat) => mpd_bin nb (E (fst (snd x))) (at2 (if fst x then X else Y) (snd (snd x)) (fst (snd x)))).
    assert (F : forall t (x : bool * (nat * nat)) v, In t (map (fun i => bin_task nb X Y (E i) i) (seq 0 d)) -> In (x, v) t -> v = f x).
    { intros t x v Ht Hx. apply in_map_iff in Ht as (i' & <- & _). unfold bin_task in Hx. apply in_app_or in Hx as [Hx|Hx];
        apply in_map_iff in Hx as (a & Ea & _); injection Ea as <- <-; reflexivity. }
    split; intros a Ha.
    - destruct (pool_run_fun binc_eq binc_eq_spec _ _ _ f F H (true, (i, a))) as (A & _). apply A.
      exists (bin_task nb X Y (E i) i). split; [apply in_map_iff; exists i; split; [reflexivity|apply in_seq; lia]|].
      unfold bin_task. apply in_or_app. left. apply in_map_iff. exists a. split; [reflexivity|apply in_seq; lia].
    - destruct (pool_run_fun binc_eq binc_eq_spec _ _ _ f F H (false, (i, a))) as (A & _). apply A.
      exists (bin_task nb X Y (E i) i). split; [apply in_map_iff; exists i; split; [reflexivity|apply in_seq; lia]|].
      unfold bin_task. apply in_or_app. right. apply in_map_iff. exists a. split; [reflexivity|apply in_seq; lia].
  Qed.

  (** a cell of the result in terms of the edges *)
  Definition mpd_final (X Y : arr2 V) (p : V) (nb : nat) (E : nat -> list V) (x y : nat) : V :=
    mpd_cell vpow (fun i b c => R_of (hist (E i) (coll Y i)) b c)
      (fun i x => mpd_bin nb (E i) (at2 X x i)) (fun i y => mpd_bin nb (E i) (at2 Y y i))
      (ncol X) (nrow X + nrow Y) (mpd_p p) x y.

  Lemma mpd_bin_lt nb (E : list V) v : 0 < nb -> mpd_bin nb E v < nb.
  Proof. intros H. unfold mpd_bin. lia. Qed.

  Lemma fold_ext_in {A B} (f g : A -> B -> A) l a : (forall b x, In x l -> f b x = g b x) -> fold_left f l a = fold_left g l a.
  Proof. revert a. induction l as [|x l IH]; intros a H; cbn; [reflexivity|]. rewrite H by (now left). apply IH. intros; apply H; now right. Qed.

  Lemma prepare_pos X Y n_bins bin jobs cpus E : mpd_prepare part X Y n_bins bin jobs cpus = Ok E -> 0 < Z.to_nat n_bins /\ Z.to_nat n_bins <= nrow Y /\ ncol X = ncol Y /\ length E = ncol Y.
  Proof.
    unfold mpd_prepare. intros H. destruct (negb (ncol X =? ncol Y)) eqn:E1; [discriminate|]. apply negb_false_iff, Nat.eqb_eq in E1.
    destruct (n_bins <? 0)%Z eqn:E2; [discriminate|]. destruct (n_bins =? 0)%Z eqn:E3; [discriminate|]. cbn [guard bind] in H.
    apply Z.ltb_ge in E2. apply Z.eqb_neq in E3.
    destruct (mpd_step (nrow Y) (Z.to_nat n_bins) =? 0) eqn:E4; [discriminate|]. apply Nat.eqb_neq in E4. unfold mpd_step in E4.
    cbn [guard bind] in H. destruct ((if (jobs =? -1)%Z then Z.of_nat cpus else jobs) <? 1)%Z in H; [discriminate|]. cbn [guard bind] in H.
    assert (P : 0 < Z.to_nat n_bins) by lia.
    assert (L : Z.to_nat n_bins <= nrow Y). { destruct (le_lt_dec (Z.to_nat n_bins) (nrow Y)); auto. exfalso. apply E4. apply Nat.div_small. lia. }
    repeat split; auto.
    destruct (String.prefix bin "mass"); [apply mapM_length in H; rewrite H, seq_length; reflexivity|].
    destruct (String.prefix bin "range"); [apply mapM_length in H; rewrite H, seq_length; reflexivity|discriminate].
  Qed.

  Definition arg2 (X : arr2 V) (Y0 : option (arr2 V)) : arr2 V := match Y0 with None => X | Some Y => Y end.
  Definition fit_all (nb d : nat) (Y : arr2 V) (E : list (list V)) : bool :=
    negb (existsb (fun i => negb (hist_fits nb (hist (nth i E []) (coll Y i)))) (seq 0 d)).

  Theorem mpd_outcome X Y0 p n_bins bin jobs cpus r :
    mp_dissim vpow part X Y0 p n_bins bin jobs cpus r <->
    let Y := arg2 X Y0 in
    match mpd_prepare part X Y n_bins bin jobs cpus with
    | Raise e => r = Raise e
    | Ok E =>
        if fit_all (Z.to_nat n_bins) (ncol X) Y E then
          exists D, r = Ok D /\ (exists out, D = Arr2 (nrow X) (nrow Y) (fun x y => out (x, y)) /\
             exists Rb bb, pool_run cell3_eq (fun _ => 0) (map (fun i => r_task (Z.to_nat n_bins) (hist (nth i E []) (coll Y i)) i) (seq 0 (ncol X))) Rb /\
              pool_run binc_eq (fun _ => 0) (map (fun i => bin_task (Z.to_nat n_bins) X Y (nth i E []) i) (seq 0 (ncol X))) bb /\
              pool_run celleq (fun _ => n0)
              (map (mpd_task vpow (fun i b c => Rb (i, (b, c))) (fun i x => bb (true, (i, x))) (fun i y => bb (false, (i, y)))
                (ncol X) (nrow X + nrow Y) (nrow Y) (mpd_p p)) (seq 0 (nrow X))) out)
        else r = Raise ValueError
    end.
  Proof.
    cbn zeta. unfold fit_all. split.
    - intros H. destruct H as [e Y H|E Y H F|E Rb bb out Y nb d H F P1 P2 P3]; unfold arg2; subst Y; try rewrite H.
      + reflexivity.
      + rewrite F. reflexivity.
      + subst nb d. rewrite F. cbn [negb]. eexists. split; [reflexivity|]. exists out. split; [reflexivity|]. exists Rb, bb. auto.
    - destruct (mpd_prepare part X (arg2 X Y0) n_bins bin jobs cpus) as [E|e] eqn:HP.
      + destruct (existsb _ _) eqn:F; cbn [negb].
        * intros ->. exact (mpd_misfit vpow part X Y0 p n_bins bin jobs cpus E HP F).
        * intros (D & -> & out & -> & Rb & bb & P1 & P2 & P3). exact (mpd_run vpow part X Y0 p n_bins bin jobs cpus E Rb bb out HP F P1 P2 P3).
      + intros ->. exact (mpd_fail vpow part X Y0 p n_bins bin jobs cpus e HP).
  Qed.

  Theorem mpd_ok_value X Y0 p n_bins bin jobs cpus D :
    mp_dissim vpow part X Y0 p n_bins bin jobs cpus (Ok D) ->
    let Y := arg2 X Y0 in
    exists E, mpd_prepare part X Y n_bins bin jobs cpus = Ok E /\ fit_all (Z.to_nat n_bins) (ncol X) Y E = true /\
      eq2 D (Arr2 (nrow X) (nrow Y) (mpd_final X Y p (Z.to_nat n_bins) (fun i => nth i E []))).
  Proof.
    intros H Y. apply mpd_outcome in H. cbn zeta in H. fold Y in H.
    destruct (mpd_prepare part X Y n_bins bin jobs cpus) as [E|e] eqn:HP; [|discriminate].
    destruct (fit_all (Z.to_nat n_bins) (ncol X) Y E) eqn:F; [|discriminate].
    destruct H as (D' & ED & out & -> & Rb & bb & P1 & P2 & P3). injection ED as ->.
    exists E. split; [reflexivity|]. split; [exact F|]. split; [reflexivity|]. split; [reflexivity|].
    cbn [at2 nrow ncol]. intros x y Hx Hy.
    destruct (prepare_pos _ _ _ _ _ _ _ HP) as (Pos & _ & HC & _).
    pose proof (r_pool _ _ (fun i => hist (nth i E []) (coll Y i)) _ P1) as R1.
    pose proof (bin_pool _ _ _ _ (fun i => nth i E []) _ P2) as R2. cbn beta in R1, R2.
    set (f := fun c : nat * nat => mpd_cell vpow (fun i b c => Rb (i, (b, c))) (fun i x => bb (true, (i, x))) (fun i y => bb (false, (i, y)))
                (ncol X) (nrow X + nrow Y) (mpd_p p) (fst c) (snd c)) in *.
    assert (FF : forall t (c : nat * nat) v, In t (map (mpd_task vpow (fun i b c => Rb (i, (b, c))) (fun i x => bb (true, (i, x))) (fun i y => bb (false, (i, y)))
                (ncol X) (nrow X + nrow Y) (nrow Y) (mpd_p p)) (seq 0 (nrow X))) -> In (c, v) t -> v = f c).
    { intros t c v Ht Hc. apply in_map_iff in Ht as (i & <- & _). apply in_map_iff in Hc as (j & Ej & _). injection Ej as <- <-. reflexivity. }
    destruct (pool_run_fun celleq celleq_spec _ _ _ f FF P3 (x, y)) as (A & _).
    rewrite A.
    2:{ eexists. split; [apply in_map_iff; exists x; split; [reflexivity|apply in_seq; lia]|].
        apply in_map_iff. exists y. split; [reflexivity|apply in_seq; lia]. }
    unfold f, mpd_final, mpd_cell. cbn [fst snd]. f_equal. f_equal. apply fold_ext_in. intros a i Hi. apply in_seq in Hi.
    destruct (R2 i ltac:(lia)) as [RX RY]. rewrite RX, RY by assumption. rewrite R1 by (try apply mpd_bin_lt; lia || assumption). reflexivity.
  Qed.

  Lemma mpd_exists X Y0 p n_bins bin jobs cpus : exists r, mp_dissim vpow part X Y0 p n_bins bin jobs cpus r.
  Proof.
    setoid_rewrite mpd_outcome. cbn zeta. destruct (mpd_prepare part X (arg2 X Y0) n_bins bin jobs cpus) as [E|e]; [|eexists; reflexivity].
    destruct (fit_all _ _ _ _); [|eexists; reflexivity]. eexists. eexists. split; [reflexivity|]. eexists. split; [reflexivity|].
    eexists. eexists. split; [apply pool_run_exists|]. split; [apply pool_run_exists|]. apply pool_run_exists.
  Qed.
End Outcome.

(** ** positions of the separators *)
Lemma last_map_seq (f : nat -> nat) t : last (map f (seq 0 (S t))) 0 = f t.
Proof. rewrite seq_S, map_app. cbn [map]. rewrite last_last. reflexivity. Qed.

Lemma kth_length n s : 0 < n -> 0 < s -> length (mpd_kth n s) = S ((n - 1 + s - 1) / s).
Proof.
  intros Hn Hs. unfold mpd_kth. remember ((n + s - 1) / s) as t eqn:Et.
  assert (T : t * s <= n + s - 1 < t * s + s).
  { subst t. pose proof (Nat.div_mod (n + s - 1) s ltac:(lia)). pose proof (Nat.mod_upper_bound (n + s - 1) s ltac:(lia)). lia. }
  destruct t as [|t]; [cbn in T; lia|]. rewrite last_map_seq. cbn [Nat.mul] in T.
  destruct (Nat.eqb_spec (t * s) (n - 1)) as [E|E].
  - rewrite map_length, seq_length. f_equal. rewrite <- E. apply (Nat.div_unique (t * s + s - 1) s t (s - 1)); lia.
  - rewrite app_length, map_length, seq_length. cbn [length]. rewrite Nat.add_comm. cbn [Nat.add]. f_equal.
    apply (Nat.div_unique (n - 1 + s - 1) s (S t) (n - 1 + s - 1 - S t * s)); cbn [Nat.mul]; lia.
Qed.

Lemma kth_shape n s m : 0 < n -> 0 < s -> length (mpd_kth n s) = S (S m) ->
  mpd_kth n s = 0 :: map (fun k => k * s) (seq 1 m) ++ [n - 1].
Proof.
  intros Hn Hs. unfold mpd_kth. remember ((n + s - 1) / s) as t eqn:Et.
  destruct (Nat.eqb_spec (last (map (fun t0 => t0 * s) (seq 0 t)) 0) (n - 1)) as [E|E]; intros L.
  - rewrite map_length, seq_length in L. subst t. rewrite L in *. rewrite last_map_seq in E.
    replace (S (S m)) with (1 + (m + 1)) by lia. rewrite seq_app, map_app. cbn [map seq app Nat.mul]. f_equal. cbn [Nat.add].
    rewrite seq_app, map_app. cbn [seq map Nat.add]. rewrite <- E. reflexivity.
  - rewrite app_length, map_length, seq_length in L. cbn [length] in L. assert (T : t = S m) by lia. rewrite T.
    cbn [seq map Nat.mul app]. reflexivity.
Qed.

Lemma kth_lt n s k : 0 < n -> 0 < s -> In k (mpd_kth n s) -> k < n.
Proof.
  intros Hn Hs. unfold mpd_kth. set (t := (n + s - 1) / s).
  assert (T : t * s <= n + s - 1) by (unfold t; rewrite Nat.mul_comm; apply Nat.mul_div_le; lia).
  assert (G : In k (map (fun t0 => t0 * s) (seq 0 t)) -> k < n).
  { intros H. apply in_map_iff in H as (a & <- & Ha). apply in_seq in Ha. assert ((a + 1) * s <= t * s) by (apply Nat.mul_le_mono_r; lia). lia. }
  destruct (_ =? _); auto. intros H. apply in_app_or in H as [H|[<-|[]]]; auto. lia.
Qed.

Section Mass.
  Context {V : Type} {N : Num V} {toX : V -> xr} (CL : CmpLaws V N toX).
  Variable part : list V -> list nat -> list V.
  Hypothesis PO : part_ok part.

  Lemma kth_norm n l : (forall k, In k l -> k < n) -> kth_legal n (map Z.of_nat l) = true /\ map (py_norm n) (map Z.of_nat l) = l.
  Proof.
    intros H. split.
    - unfold kth_legal. apply forallb_forall. intros z Hz. apply in_map_iff in Hz as (k & <- & Hk). specialize (H k Hk).
      apply andb_true_iff. rewrite Z.leb_le, Z.ltb_lt. lia.
    - rewrite map_map. rewrite <- (map_id l) at 2. apply map_ext_in. intros k _. unfold py_norm.
      replace (Z.of_nat k <? 0)%Z with false by (symmetry; apply Z.ltb_ge; lia). apply Nat2Z.id.
  Qed.

  Lemma mass_edges_ok col s : 0 < length col -> 0 < s ->
    exists q, mass_edges part (mpd_kth (length col) s) col = Ok (take nnan q (mpd_kth (length col) s)) /\
      is_part col (mpd_kth (length col) s) q.
  Proof.
    intros Hc Hs. set (kth := mpd_kth (length col) s).
    assert (K : forall k, In k kth -> k < length col) by (intros k; apply kth_lt; auto).
    destruct (kth_norm _ _ K) as [K1 K2]. exists (part col kth). split; [|apply PO; exact K].
    unfold mass_edges, np_partition. rewrite K1, K2. reflexivity.
  Qed.

  (** the edges of equal mass are increasing and enclose the values *)
  Lemma mass_shape col s m q : 0 < length col -> 0 < s -> (forall v, In v col -> nisnan v = false) ->
    length (mpd_kth (length col) s) = S (S m) -> is_part col (mpd_kth (length col) s) q ->
    let seps := map (fun k => nth (k * s) q nnan) (seq 1 m) in
    let e0 := nth 0 q nnan in let en := nth (length col - 1) q nnan in
    take nnan q (mpd_kth (length col) s) = e0 :: seps ++ [en] /\ edges_ok e0 seps en /\
    (forall w, In w col -> nle e0 w = true /\ nle w en = true) /\
    (forall k, 1 <= k <= m -> k * s < length col).
  Proof.
    intros Hc Hs Hnan HL [HP HK] seps e0 en. pose proof (kth_shape _ _ _ Hc Hs HL) as SH.
    assert (Lq : length q = length col) by (apply Permutation_length; exact HP).
    assert (Qn : forall a, a < length col -> nisnan (nth a q nnan) = false).
    { intros a Ha. apply Hnan. eapply Permutation_in; [exact HP|]. apply nth_In. lia. }
    assert (KL : forall k, In k (mpd_kth (length col) s) -> k < length col) by (intros k; apply kth_lt; auto).
    assert (KS : forall k, 1 <= k <= m -> In (k * s) (mpd_kth (length col) s)).
    { intros k Hk. rewrite SH. right. apply in_or_app. left. apply in_map_iff. exists k. split; [reflexivity|apply in_seq; lia]. }
    assert (K0 : In 0 (mpd_kth (length col) s)) by (rewrite SH; now left).
    assert (K1 : In (length col - 1) (mpd_kth (length col) s)) by (rewrite SH; right; apply in_or_app; right; now left).
    assert (LE : forall a k, In k (mpd_kth (length col) s) -> a <= k -> nle (nth a q nnan) (nth k q nnan) = true).
    { intros a k Hk Ha. pose proof (KL k Hk). destruct (Nat.eq_dec a k) as [->|Ne].
      - rewrite (nle_not_lt CL), (nlt_irrefl CL) by (apply Qn; lia). reflexivity.
      - destruct (HK k Hk a) as [A _]. specialize (A ltac:(lia)). unfold sle, vat in A. rewrite !Qn in A by lia.
        cbn in A. exact A. }
    assert (GE : forall a k, In k (mpd_kth (length col) s) -> k <= a -> a < length col -> nle (nth k q nnan) (nth a q nnan) = true).
    { intros a k Hk Ha Hl. pose proof (KL k Hk). destruct (Nat.eq_dec a k) as [->|Ne].
      - rewrite (nle_not_lt CL), (nlt_irrefl CL) by (apply Qn; lia). reflexivity.
      - destruct (HK k Hk a) as [_ A]. specialize (A ltac:(lia) ltac:(lia)). unfold sle, vat in A. rewrite !Qn in A by lia.
        cbn in A. exact A. }
    assert (IS : forall x, In x seps -> exists k, 1 <= k <= m /\ x = nth (k * s) q nnan).
    { intros x Hx. apply in_map_iff in Hx as (k & <- & Hk). apply in_seq in Hk. exists k. split; [lia|reflexivity]. }
    split; [|split; [|split]].
    - rewrite SH. unfold take. cbn [map]. rewrite map_app, map_map. reflexivity.
    - constructor.
      + intros x [<-|Hx]; [apply Qn; lia|]. apply in_app_or in Hx as [Hx|[<-|[]]]; [|apply Qn; lia].
        apply IS in Hx as (k & Hk & ->). apply Qn. auto.
      + intros x Hx. apply in_app_or in Hx as [Hx|[<-|[]]].
        * apply IS in Hx as (k & Hk & ->). apply LE; [auto|lia].
        * apply LE; [assumption|lia].
      + intros x Hx. apply IS in Hx as (k & Hk & ->). apply LE; [assumption|]. pose proof (KL _ (KS k Hk)). lia.
      + intros a b Hab Hb. unfold seps in Hb. rewrite map_length, seq_length in Hb.
        assert (G : forall a, a < m -> nth a seps nnan = nth ((S a) * s) q nnan).
        { intros c Hcm. unfold seps. rewrite (nth_indep _ nnan ((fun k => nth (k * s) q nnan) 0)) by (rewrite map_length, seq_length; lia).
          rewrite (map_nth (fun k => nth (k * s) q nnan)). rewrite seq_nth by lia. reflexivity. }
        rewrite !G by lia. apply LE; [apply KS; lia|]. apply Nat.mul_le_mono_r. lia.
    - intros w Hw. assert (Hq : In w q) by (eapply Permutation_in; [symmetry; exact HP|exact Hw]).
      destruct (In_nth _ _ nnan Hq) as (a & Ha & <-). split; [apply GE; auto; lia|apply LE; auto; lia].
    - intros k Hk. apply KL. auto.
  Qed.
End Mass.
