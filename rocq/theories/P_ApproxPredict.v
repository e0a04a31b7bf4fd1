(** Proofs about predict. *)
From Coq Require Import ZArith List Arith Lia Bool Permutation Reals Lra.
From Verif Require Import Py Num NumT Arr Sort S_ApproxPredict M_Approx M_ApproxPredict P_Neighbors P_LS P_Approx P_ApproxANN.
Import ListNotations.
Local Open Scope nat_scope.

Lemma mode_elected l : l <> [] -> elected_label l (mode l).
Proof.
  intros Hl. unfold mode. set (ct := count_occ Z.eq_dec l).
  set (step := fun b c => if (ct b <? ct c) || ((ct b =? ct c) && (c <? b)%Z) then c else b).
  assert (G : forall r b, let w := fold_left step r b in
    (w = b \/ In w r) /\ forall c, c = b \/ In c r -> ct c < ct w \/ (ct c = ct w /\ (w <= c)%Z)).
  { induction r as [|a r IH]; intros b; cbn [fold_left].
    - split; [now left|]. intros c [->|[]]. right. split; [reflexivity|lia].
    - destruct (IH (step b a)) as (A & B). cbv zeta in *. set (w := fold_left step r (step b a)) in *.
      assert (S : (step b a = b \/ step b a = a) /\ forall c, c = b \/ c = a -> ct c < ct (step b a) \/ (ct c = ct (step b a) /\ (step b a <= c)%Z)).
      { unfold step. destruct (Nat.ltb_spec (ct b) (ct a)); cbn [orb].
        - split; [now right|]. intros c [->| ->]; [now left|right; split; [reflexivity|lia]].
        - destruct (Nat.eqb_spec (ct b) (ct a)); cbn [andb].
          + destruct (Z.ltb_spec a b); (split; [auto|]); intros c [->| ->]; right; split; congruence || lia.
          + split; [now left|]. intros c [->| ->]; [right; split; [reflexivity|lia]|left; lia]. }
      destruct S as (S1 & S2). split.
      + destruct A as [->|A]; [|right; now right]. destruct S1 as [->| ->]; [now left|right; now left].
      + intros c Hc. assert (Hw := B (step b a) (or_introl eq_refl)).
        assert (Hc' : c = b \/ c = a \/ In c r) by (destruct Hc as [->|[->|Hc]]; auto).
        destruct Hc' as [->|[->|Hc']]; [| |apply B; now right].
        * destruct (S2 b (or_introl eq_refl)); destruct Hw; lia.
        * destruct (S2 a (or_intror eq_refl)); destruct Hw; lia. }
  destruct (G l (hd 0%Z l)) as (A & B). cbv zeta in *. fold step. set (w := fold_left step l (hd 0%Z l)) in *.
  assert (In w l) as Iw by (destruct A as [->|A]; [destruct l; [congruence|now left]|exact A]).
  assert (Pw : 0 < ct w) by (now apply count_occ_In).
  split; [exact Iw|]. split.
  - intros c. unfold votes. fold ct. destruct (in_dec Z.eq_dec c l) as [I|I].
    + destruct (B c (or_intror I)); lia.
    + apply (count_occ_not_In Z.eq_dec) in I. unfold ct. lia.
  - intros c. unfold votes. fold ct. intros E. destruct (in_dec Z.eq_dec c l) as [I|I].
    + destruct (B c (or_intror I)); lia.
    + apply (count_occ_not_In Z.eq_dec) in I. fold ct in I. lia.
Qed.
Lemma elected_unique l c c' : elected_label l c -> elected_label l c' -> c = c'.
Proof.
  intros (_ & A & B) (_ & A' & B'). assert (votes l c = votes l c') by (apply Nat.le_antisymm; auto).
  apply Z.le_antisymm; [apply B|apply B']; congruence.
Qed.
Lemma elected_perm l l' c : Permutation l l' -> elected_label l c -> elected_label l' c.
Proof.
  intros P (A & B & C). assert (E : forall x, votes l' x = votes l x) by (intros x; unfold votes; symmetry; now apply (Permutation_count_occ Z.eq_dec)).
  split; [now apply (Permutation_in _ P)|]. split; intros x; rewrite !E; auto.
Qed.

Lemma argpart_nearest (f : nat -> R) n K p : 1 <= K <= n -> is_argpart (map (fun l => XFin (f l)) (seq 0 n)) [K - 1] p ->
  nearest_positions f n K (firstn K p).
Proof.
  intros HK (P & H). rewrite map_length, seq_length in P, H.
  assert (L : length p = n) by (rewrite (Permutation_length P); apply seq_length).
  assert (ND : NoDup p) by (apply (Permutation_NoDup (Permutation_sym P)), seq_NoDup).
  assert (V : forall a, a < n -> vat (map (fun l => XFin (f l)) (seq 0 n)) (nth a p 0) = XFin (f (nth a p 0))).
  { intros a Ha. unfold vat. rewrite nth_map_seq; [reflexivity|]. assert (I : In (nth a p 0) (seq 0 n)) by (apply (Permutation_in _ P), nth_In; lia). apply in_seq in I. lia. }
  assert (S : forall a b, sle (XFin a) (XFin b) = true -> (a <= b)%R).
  { intros a b E. rewrite sle_nle in E by reflexivity. cbn in E. destruct (Rle_dec a b); [assumption|discriminate]. }
  split; [rewrite firstn_length; lia|]. split; [now apply NoDup_firstn|]. split.
  - intros a Ha. assert (I : In a (seq 0 n)) by (apply (Permutation_in _ P); rewrite <- (firstn_skipn K p); apply in_app_iff; now left). apply in_seq in I. lia.
  - intros a b Ha Hb Hn. apply (In_nth _ _ 0) in Ha as (s & Hs & <-). rewrite firstn_length in Hs. rewrite nth_firstn_lt by lia.
    destruct (perm_pos p n b P Hb) as (t & Ht & <-).
    assert (Ht' : K <= t).
    { destruct (Nat.lt_ge_cases t K) as [C|C]; [|exact C]. exfalso. apply Hn. rewrite <- (nth_firstn_lt K) by exact C. apply nth_In. rewrite firstn_length. lia. }
    destruct (H (K - 1) (or_introl eq_refl) t) as (_ & H2). specialize (H2 ltac:(lia) Ht). rewrite !V in H2 by lia. apply S in H2.
    destruct (Nat.eq_dec s (K - 1)) as [->|E]; [exact H2|].
    destruct (H (K - 1) (or_introl eq_refl) s) as (H1 & _). specialize (H1 ltac:(lia)). rewrite !V in H1 by lia. apply S in H1. lra.
Qed.
Lemma nearest_shift f s n K nb : nearest_positions (fun p => (f p + s)%R) n K nb -> nearest_positions f n K nb.
Proof. intros (A & B & C & D). repeat split; auto. intros p q Hp Hq Hn. specialize (D p q Hp Hq Hn). cbv beta in D. lra. Qed.
Lemma nearest_unique f n K nb nb' : (forall p q, p < n -> q < n -> f p = f q -> p = q) ->
  nearest_positions f n K nb -> nearest_positions f n K nb' -> Permutation nb nb'.
Proof.
  intros Inj (L & ND & B & O) (L' & ND' & B' & O'). apply NoDup_Permutation; auto.
  assert (G : forall nb nb', length nb = K -> NoDup nb -> (forall p, In p nb -> p < n) -> (forall p q, In p nb -> q < n -> ~ In q nb -> (f p <= f q)%R) ->
    length nb' = K -> NoDup nb' -> (forall p, In p nb' -> p < n) -> (forall p q, In p nb' -> q < n -> ~ In q nb' -> (f p <= f q)%R) -> forall x, In x nb -> In x nb').
  { clear - Inj. intros nb nb' L ND B O L' ND' B' O'. intros x Hx. destruct (in_dec Nat.eq_dec x nb') as [I|I]; [exact I|exfalso].
    assert (Q : exists y, In y nb' /\ ~ In y nb).
    { destruct (Forall_Exists_dec (fun y => In y nb) (fun y => in_dec Nat.eq_dec y nb) nb') as [F|E].
      - exfalso. rewrite Forall_forall in F. assert (incl nb nb') by (apply NoDup_length_incl; auto; lia). apply I. now apply H.
      - apply Exists_exists in E as (y & E1 & E2). eauto. }
    destruct Q as (y & Y1 & Y2). pose proof (O x y Hx (B' y Y1) Y2). pose proof (O' y x Y1 (B x Hx) I).
    assert (x = y); [apply Inj; auto; lra|]. subst. contradiction. }
  intros x. split; [apply G with (nb' := nb')|apply G with (nb' := nb)]; auto.
Qed.

(** the whole matrix after enforce_finite_distances *)
Lemma flat_nth {V} {N : Num V} (D : arr2 V) i j d : i < nrow D -> j < ncol D ->
  nth (i * ncol D + j) (concat (map (fun i => rowl D i) (seq 0 (nrow D)))) d = at2 D i j.
Proof.
  intros Hi Hj. assert (G : forall n s, i < n -> nth (i * ncol D + j) (concat (map (fun i => rowl D i) (seq s n))) d = at2 D (s + i) j).
  { clear Hi. induction i as [|i IH]; intros [|n] s Hn; try lia; cbn [seq map concat].
    - rewrite app_nth1 by (unfold rowl; now rewrite map_length, seq_length). unfold rowl. rewrite Nat.mul_0_l, Nat.add_0_l, Nat.add_0_r. now apply nth_map_seq.
    - assert (Lr : length (rowl D s) = ncol D) by (unfold rowl; now rewrite map_length, seq_length).
      rewrite app_nth2 by (rewrite Lr; lia). rewrite Lr. replace (S i * ncol D + j - ncol D) with (i * ncol D + j) by lia.
      rewrite IH by lia. f_equal. lia. }
  apply (G (nrow D) 0 Hi).
Qed.
Lemma flat_length {V} {N : Num V} (D : arr2 V) : length (concat (map (fun i => rowl D i) (seq 0 (nrow D)))) = nrow D * ncol D.
Proof.
  assert (G : forall n s, length (concat (map (fun i => rowl D i) (seq s n))) = n * ncol D).
  { induction n as [|n IH]; intros s; [reflexivity|]. cbn [seq map concat]. rewrite app_length, IH. unfold rowl. rewrite map_length, seq_length. lia. }
  apply G.
Qed.
Lemma flat_in {V} {N : Num V} (D : arr2 V) x : In x (concat (map (fun i => rowl D i) (seq 0 (nrow D)))) <-> exists i j, i < nrow D /\ j < ncol D /\ at2 D i j = x.
Proof.
  rewrite in_concat. split.
  - intros (r & Hr & Hx). apply in_map_iff in Hr as (i & <- & Hi). apply in_seq in Hi. unfold rowl in Hx. apply in_map_iff in Hx as (j & <- & Hj). apply in_seq in Hj. exists i, j. repeat split; lia.
  - intros (i & j & Hi & Hj & <-). exists (rowl D i). split; [apply in_map_iff; exists i; split; [reflexivity|apply in_seq; lia]|]. unfold rowl. apply in_map_iff. exists j. split; [reflexivity|]. apply in_seq. lia.
Qed.
Lemma finite_dists_xr (D : arr2 xr) : 0 < nrow D -> 0 < ncol D ->
  exists F top s, finite_dists D = Ok F /\ nrow F = nrow D /\ ncol F = ncol D /\ largest_finite D top /\
    forall i j, i < nrow D -> j < ncol D -> at2 F i j = XFin (effective top (at2 D i j) + s)%R.
Proof.
  intros Hr Hc. unfold finite_dists. set (l := concat (map (fun i => rowl D i) (seq 0 (nrow D)))).
  assert (Hl : l <> []).
  { intros C. assert (L := flat_length D). fold l in L. rewrite C in L. cbn in L. assert (0 < nrow D * ncol D) by (apply Nat.mul_pos_pos; lia). lia. }
  destruct (enforce_xr l Hl) as (m & _ & _ & E & _). rewrite E. cbn [bind].
  assert (T : exists top, ef_max l = XFin top /\ largest_finite D top).
  { destruct (existsb nisfin l) eqn:Ex.
    - apply existsb_exists in Ex as (x & Ix & Fx). destruct (xfin_inv x Fx) as (r & ->).
      destruct (ef_max_top l r Ix) as (d & Ed & _ & Id). exists d. split; [exact Ed|]. left.
      apply flat_in in Id as (i & j & Hi & Hj & Eij). exists i, j. split; [auto|]. split; [exact Eij|].
      intros i' j' r' (Hi' & Hj') Er. destruct (ef_max_top l r') as (d' & Ed' & Hle & _); [apply flat_in; eauto 6|]. rewrite Ed in Ed'. injection Ed' as <-. exact Hle.
    - assert (Q : forall x, In x l -> nisfin x = false).
      { intros x Ix. destruct (nisfin x) eqn:Fx; [|reflexivity]. exfalso. assert (existsb nisfin l = true) by (apply existsb_exists; eauto). congruence. }
      exists 1%R. split; [now apply ef_max_none|]. right. split; [reflexivity|]. intros i j (Hi & Hj). apply Q, flat_in. eauto. }
  destruct T as (top & Et & HT). eexists. exists top, (Rmax 0 (- m)). split; [reflexivity|]. split; [reflexivity|]. split; [reflexivity|]. split; [exact HT|].
  intros i j Hi Hj. cbn [at2].
  assert (B : i * ncol D + j < length l) by (unfold l; rewrite flat_length; nia).
  set (g := fun v => xadd v (XFin (Rmax 0 (- m)))).
  rewrite (nth_indep _ nnan (g nnan)) by (rewrite map_length, ef_fix_length; exact B). rewrite map_nth.
  rewrite (ef_fix_nth l _ _ nnan) by exact B. unfold l at 1 2. rewrite flat_nth by assumption. fold l. rewrite Et.
  unfold g. destruct (at2 D i j); reflexivity.
Qed.
