(** Proofs about weighted votes (C153). *)
From Coq Require Import ZArith List Arith Lia Bool Permutation Reals Lra Sorted.
From Verif Require Import Py Num NumT Arr Sort M_GK S_ApproxPredict M_Approx M_ApproxPredict M_ApproxWeights S_ApproxWeights.
From Verif Require Import P_Neighbors P_LS P_Approx P_ApproxANN P_ApproxPredict P_GK2.
Import ListNotations.
Local Open Scope nat_scope.

(** the loop of weighted_mode for real weights [t] *)
Lemma wmode_loop (t : Z -> R) : forall l best old,
  StronglySorted Z.lt l -> (forall c, In c l -> (0 <= t c)%R) -> (0 <= old)%R ->
  let st := fold_left (fun (st : Z * xr) c => if nlt (snd st) (XFin (t c)) then (c, XFin (t c)) else st) l (best, XFin old) in
  exists m, snd st = XFin m /\ (old <= m)%R /\ (forall c, In c l -> (t c <= m)%R) /\
    ((m = old /\ fst st = best) \/
     ((old < m)%R /\ In (fst st) l /\ t (fst st) = m /\ forall c, In c l -> t c = m -> (fst st <= c)%Z)).
Proof.
  induction l as [|c l IH]; intros best old S P Po; cbv zeta.
  - exists old. cbn. repeat split; try lra. intros c []. now left.
  - inversion S as [|? ? Ss Sf]; subst. rewrite Forall_forall in Sf. cbn [fold_left snd].
    assert (Q : nlt (XFin old) (XFin (t c)) = if Rlt_dec old (t c) then true else false) by (cbn; now destruct (Rlt_dec old (t c))).
    rewrite Q. destruct (Rlt_dec old (t c)) as [H|H].
    + destruct (IH c (t c) Ss) as (m & E & L & B & K); [intros; apply P; now right|apply P; now left|].
      exists m. split; [exact E|]. split; [lra|]. split; [intros x [<-|Hx]; auto|]. right.
      destruct K as [(-> & ->) | (K1 & K2 & K3 & K4)].
      * split; [lra|]. split; [now left|]. split; [reflexivity|]. intros x [<-|Hx] _; [lia|]. specialize (Sf x Hx). lia.
      * split; [lra|]. split; [now right|]. split; [exact K3|]. intros x [<-|Hx] Ex; [lra|auto].
    + destruct (IH best old Ss) as (m & E & L & B & K); [intros; apply P; now right|exact Po|].
      exists m. split; [exact E|]. split; [lra|]. split; [intros x [<-|Hx]; auto; lra|].
      destruct K as [K | (K1 & K2 & K3 & K4)]; [now left|]. right. split; [exact K1|]. split; [now right|]. split; [exact K3|].
      intros x [<-|Hx] Ex; [lra|auto].
Qed.

Lemma total_cons wt lab p nb c : total wt lab (p :: nb) c = ((if (lab p =? c)%Z then wt p else 0) + total wt lab nb c)%R.
Proof. reflexivity. Qed.
Lemma total_nonneg wt lab nb c : (forall p, In p nb -> (0 <= wt p)%R) -> (0 <= total wt lab nb c)%R.
Proof.
  induction nb as [|p nb IH]; intros H; [cbn; lra|]. rewrite total_cons.
  assert (0 <= total wt lab nb c)%R by (apply IH; intros; apply H; now right).
  specialize (H p (or_introl eq_refl)). destruct (lab p =? c)%Z; lra.
Qed.
Lemma total_pos wt lab nb p : (forall p, In p nb -> (0 <= wt p)%R) -> In p nb -> (0 < wt p)%R -> (0 < total wt lab nb (lab p))%R.
Proof.
  intros H I W. induction nb as [|q nb IH]; [destruct I|]. rewrite total_cons.
  destruct I as [->|I].
  - rewrite Z.eqb_refl. assert (0 <= total wt lab nb (lab p))%R by (apply total_nonneg; intros; apply H; now right). lra.
  - assert (0 < total wt lab nb (lab p))%R by (apply IH; auto; intros; apply H; now right).
    specialize (H q (or_introl eq_refl)). destruct (lab q =? lab p)%Z; lra.
Qed.

Lemma weighted_mode_elected dflt wt lab nb : (forall p, In p nb -> (0 <= wt p)%R) -> (exists p, In p nb /\ (0 < wt p)%R) ->
  elected_by_weight wt lab nb (weighted_mode xsum dflt (map lab nb) (map (fun p => XFin (wt p)) nb)).
Proof.
  intros W (p & Ip & Wp). unfold weighted_mode.
  assert (C : forall c, xsum (map (fun q => nmul (if (fst q =? c)%Z then n1 else n0) (snd q))
               (combine (map lab nb) (map (fun p => XFin (wt p)) nb))) = XFin (total wt lab nb c)).
  { intros c. unfold total. rewrite <- xsum_fin, map_map. f_equal. clear. induction nb as [|q nb IH]; [reflexivity|]. cbn [map combine fst snd].
    f_equal; [|exact IH]. destruct (lab q =? c)%Z; cbn; f_equal; lra. }
  set (u := unique_labels (map lab nb)).
  replace (fold_left _ u (dflt, n0)) with
    (fold_left (fun (st : Z * xr) c => if nlt (snd st) (XFin (total wt lab nb c)) then (c, XFin (total wt lab nb c)) else st) u (dflt, XFin 0)).
  2:{ change (@n0 xr _) with (XFin 0). generalize (dflt, XFin 0). induction u as [|c u IH]; intros st; [reflexivity|]. cbn [fold_left]. rewrite !C. apply IH. }
  destruct (wmode_loop (total wt lab nb) u dflt 0%R) as (m & _ & L & B & K); [apply unique_sorted|intros; now apply total_nonneg|lra|].
  assert (M : (0 < m)%R).
  { assert (T := total_pos wt lab nb p W Ip Wp). specialize (B (lab p)). apply Rlt_le_trans with (1 := T), B, unique_In, in_map, Ip. }
  destruct K as [(-> & _) | (_ & K2 & K3 & K4)]; [lra|]. split; [exact (proj1 (unique_In _ _) K2)|].
  intros c' Hc'. apply (proj2 (unique_In c' (map lab nb))) in Hc'. fold u in Hc'. rewrite K3. split; [now apply B|now apply K4].
Qed.

Lemma votes_total lab nb c : total (fun _ => 1%R) lab nb c = INR (votes (map lab nb) c).
Proof.
  unfold votes. induction nb as [|p nb IH]; [reflexivity|]. rewrite total_cons, IH. cbn [map count_occ].
  destruct (Z.eqb_spec (lab p) c) as [E|E], (Z.eq_dec (lab p) c) as [E'|E']; try contradiction; [rewrite S_INR|]; lra.
Qed.
Lemma elected_one lab nb c : elected_label (map lab nb) c -> elected_by_weight (fun _ => 1%R) lab nb c.
Proof.
  intros (A & B & C). split; [exact A|]. intros c' _. rewrite !votes_total. split; [apply le_INR, B|]. intros E. apply INR_eq in E. now apply C.
Qed.

Lemma inv_weights_xr (d : nat -> R) nb : (forall p, In p nb -> (0 <= d p)%R) ->
  inv_weights (map (fun p => XFin (d p)) nb) = map (fun p => XFin (weight WDistance d nb p)) nb.
Proof.
  intros H. unfold inv_weights. rewrite map_map.
  set (isinf := fun v : xr => negb (nisfin v) && negb (nisnan v)).
  assert (Q : forall p, In p nb -> isinf (ndiv n1 (XFin (d p))) = if Req_EM_T (d p) 0 then true else false).
  { intros p Hp. cbn. destruct (Req_EM_T (d p) 0); [|reflexivity]. unfold rsgn. destruct (Rlt_dec 1 0), (Rlt_dec 0 1); try lra; reflexivity. }
  assert (E : existsb isinf (map (fun p => ndiv n1 (XFin (d p))) nb) = existsb (fun q => if Req_EM_T (d q) 0 then true else false) nb).
  { clear H. induction nb as [|p nb IH]; [reflexivity|]. cbn [map existsb]. rewrite IH by (intros; apply Q; now right). f_equal. apply Q. now left. }
  fold isinf. rewrite E. unfold weight. destruct (existsb (fun q => if Req_EM_T (d q) 0 then true else false) nb) eqn:Z.
  - rewrite map_map. apply map_ext_in. intros p Hp. cbv beta. fold (isinf (ndiv n1 (XFin (d p)))). rewrite Q by exact Hp. destruct (Req_EM_T (d p) 0); reflexivity.
  - apply map_ext_in. intros p Hp. cbn. destruct (Req_EM_T (d p) 0) as [E0|E0].
    + exfalso. assert (existsb (fun q => if Req_EM_T (d q) 0 then true else false) nb = true); [|congruence].
      apply existsb_exists. exists p. split; [exact Hp|]. destruct (Req_EM_T (d p) 0); congruence.
    + f_equal. unfold Rdiv. lra.
Qed.

Lemma weight_nonneg w d nb p : (forall q, In q nb -> (0 <= d q)%R) -> In p nb -> (0 <= weight w d nb p)%R.
Proof.
  intros H I. destruct w; cbn; [lra|]. destruct (existsb _ nb) eqn:E; [destruct (Req_EM_T (d p) 0); lra|].
  specialize (H p I). destruct (Req_dec (d p) 0) as [Z|Z]; [rewrite Z, Rinv_0; lra|]. left. apply Rinv_0_lt_compat. lra.
Qed.
Lemma weight_pos w d nb : nb <> [] -> (forall q, In q nb -> (0 <= d q)%R) -> exists p, In p nb /\ (0 < weight w d nb p)%R.
Proof.
  intros Hn H. destruct w; cbn.
  - destruct nb as [|p nb]; [congruence|]. exists p. split; [now left|lra].
  - destruct (existsb (fun q => if Req_EM_T (d q) 0 then true else false) nb) eqn:E.
    + apply existsb_exists in E as (q & Hq & Eq). exists q. split; [exact Hq|]. destruct (Req_EM_T (d q) 0); [lra|discriminate].
    + destruct nb as [|p nb]; [congruence|]. exists p. split; [now left|]. cbn [existsb] in E. apply orb_false_iff in E as (E & _).
      destruct (Req_EM_T (d p) 0); [discriminate|]. apply Rinv_0_lt_compat. specialize (H p (or_introl eq_refl)). lra.
Qed.

Lemma total_perm wt lab nb nb' c : Permutation nb nb' -> total wt lab nb c = total wt lab nb' c.
Proof.
  intros P. induction P; rewrite ?total_cons; lra.
Qed.
Lemma weight_perm w d nb nb' p : Permutation nb nb' -> weight w d nb p = weight w d nb' p.
Proof.
  intros P. destruct w; cbn; [reflexivity|].
  replace (existsb (fun q => if Req_EM_T (d q) 0 then true else false) nb') with (existsb (fun q => if Req_EM_T (d q) 0 then true else false) nb); [reflexivity|].
  apply eq_true_iff_eq. rewrite !existsb_exists. split; intros (q & Hq & E); exists q; split; auto; [eapply Permutation_in|eapply Permutation_in; [apply Permutation_sym|]]; eauto.
Qed.
Lemma total_ext wt wt' lab nb c : (forall p, In p nb -> wt p = wt' p) -> total wt lab nb c = total wt' lab nb c.
Proof. intros H. unfold total. f_equal. apply map_ext_in. intros p Hp. now rewrite H. Qed.
Lemma elected_w_perm wt wt' lab nb nb' c : Permutation nb nb' -> (forall p, In p nb -> wt p = wt' p) ->
  elected_by_weight wt lab nb c -> elected_by_weight wt' lab nb' c.
Proof.
  intros P W (A & B). split; [now apply (Permutation_in _ (Permutation_map lab P))|].
  intros c' Hc'. rewrite <- !(total_perm wt' lab nb nb') by exact P. rewrite <- !(total_ext wt wt') by exact W.
  apply B. now apply (Permutation_in _ (Permutation_sym (Permutation_map lab P))).
Qed.
Lemma elected_w_unique wt lab nb c c' : elected_by_weight wt lab nb c -> elected_by_weight wt lab nb c' -> c = c'.
Proof.
  intros (A & B) (A' & B'). destruct (B c' A') as (L & E), (B' c A) as (L' & E').
  assert (total wt lab nb c' = total wt lab nb c) as T by lra. apply Z.le_antisymm; [now apply E|apply E'; now symmetry].
Qed.

(** the exact shift of a matrix *)
Lemma finite_dists_shift (D : arr2 xr) : 0 < nrow D -> 0 < ncol D ->
  exists F top s, finite_dists D = Ok F /\ nrow F = nrow D /\ ncol F = ncol D /\ largest_finite D top /\ shift_of D top s /\
    forall i j, i < nrow D -> j < ncol D -> at2 F i j = XFin (effective top (at2 D i j) + s)%R.
Proof.
  intros Hr Hc. destruct (finite_dists_xr D Hr Hc) as (F & top & s & E & A & B & T & H).
  exists F, top, s. repeat split; auto.
  unfold finite_dists in E. set (l := concat (map (fun i => rowl D i) (seq 0 (nrow D)))) in E.
  assert (Hl : l <> []).
  { intros C. assert (L := flat_length D). fold l in L. rewrite C in L. cbn in L. assert (0 < nrow D * ncol D) by (apply Nat.mul_pos_pos; lia). lia. }
  destruct (enforce_xr l Hl) as (m & Im & Mm & En & _). cbv zeta in En. rewrite En in E. cbn [bind] in E.
  assert (Val : forall i j, i < nrow D -> j < ncol D -> nth (i * ncol D + j) (ef_fix l) nnan = XFin (effective top (at2 D i j) + s - Rmax 0 (- m))%R).
  { intros i j Hi Hj. specialize (H i j Hi Hj). injection E as <-. cbn [at2] in H. change (@nnan xr _) with XNaN.
    assert (Bd : i * ncol D + j < length l) by (unfold l; rewrite flat_length; nia).
    set (g := fun v => xadd v (XFin (Rmax 0 (- m)))) in *.
    rewrite (nth_indep _ XNaN (g XNaN)) in H by (rewrite map_length, ef_fix_length; exact Bd). rewrite map_nth in H.
    destruct (nth (i * ncol D + j) (ef_fix l) XNaN) eqn:Q; cbn in H; try discriminate. injection H as H. f_equal. lra. }
  (* the value of a finite cell is itself, so s is the shift *)
  assert (S : s = Rmax 0 (- m)).
  { assert (T' := T). destruct T' as [(i & j & (Hi & Hj) & Eij & _) | (E1 & Nf)].
    - specialize (Val i j Hi Hj). rewrite (ef_fix_nth l _ _ nnan) in Val by (unfold l; rewrite flat_length; nia).
      unfold l in Val at 1 2. rewrite flat_nth in Val by assumption. rewrite Eij in Val. cbn in Val. injection Val as Val. lra.
    - specialize (Val 0 0 Hr Hc). rewrite (ef_fix_nth l _ _ nnan) in Val by (unfold l; rewrite flat_length; nia).
      unfold l in Val at 1 2. rewrite flat_nth in Val by assumption. fold l in Val.
      assert (Em : ef_max l = XFin 1) by (apply ef_max_none; intros x Hx; apply flat_in in Hx as (i & j & Hi & Hj & <-); auto).
      rewrite Em in Val. specialize (Nf 0 0 (conj Hr Hc)). destruct (at2 D 0 0); cbn in Nf, Val; try discriminate; injection Val as Val; subst top; lra. }
  assert (Im' := Im). apply (In_nth _ _ nnan) in Im as (q & Hq & Eq). rewrite ef_fix_length in Hq. unfold l in Hq. rewrite flat_length in Hq.
  assert (Hi : q / ncol D < nrow D) by (apply Nat.div_lt_upper_bound; lia). assert (Hj : q mod ncol D < ncol D) by (apply Nat.mod_upper_bound; lia).
  assert (Qe : q = q / ncol D * ncol D + q mod ncol D) by (rewrite Nat.mul_comm; apply Nat.div_mod_eq).
  rewrite Qe, Val in Eq by assumption. injection Eq as Eq.
  exists (q / ncol D), (q mod ncol D). split; [exact Hi|]. split; [exact Hj|]. split.
  - intros i' j' Hi' Hj'. specialize (Val i' j' Hi' Hj').
    assert (In (XFin (effective top (at2 D i' j') + s - Rmax 0 (- m))) (ef_fix l)) as I.
    { rewrite <- Val. apply nth_In. rewrite ef_fix_length. unfold l. rewrite flat_length. nia. }
    apply Mm in I. lra.
  - replace (effective top (at2 D (q / ncol D) (q mod ncol D))) with m by lra. exact S.
Qed.
