(** Proofs for C174: draws of a generator and arbitrary permutations. *)
From Coq Require Import String.
From Coq Require Import ZArith List Arith Lia Bool Permutation.
From Verif Require Import Py Num Arr Sort Conc S_Neighbors M_IO M_GK M_SNN M_KNN M_MPEmpiric M_SparseKNN M_Start.
From Verif Require Import S_SparseKNN P_SparseKNN P_SparseKNN2 P_SparseKNN3 S_HubRng S_KnnRng M_KnnRng.
Import ListNotations.
Local Open Scope nat_scope.

Lemma mapM_app {A B} (f : A -> result B) l1 l2 :
  mapM f (l1 ++ l2) = bind (mapM f l1) (fun r1 => bind (mapM f l2) (fun r2 => Ok (r1 ++ r2))).
Proof.
  induction l1 as [|a l IH]; cbn [app mapM bind]; [now destruct (mapM f l2)|].
  destruct (f a) as [b|e]; [|reflexivity]. cbn [bind]. rewrite IH. destruct (mapM f l) as [r|e]; [|reflexivity]. cbn [bind].
  destruct (mapM f l2); reflexivity.
Qed.

Section Rng.
  Context {V : Type} {N : Num V} {G : Type}.
  Variable perm : nat -> G -> list nat * G.
  Hypothesis HG : generator perm.

  Definition permuter (f : list nat -> list nat) : Prop := forall l, Permutation (f l) l.
  Definition at_state (g : G) (l : list nat) : list nat := fst (permuted perm l g).
  Lemma at_state_perm g : permuter (at_state g).
  Proof.
    intros l. unfold at_state, permuted. specialize (HG (length l) g). destruct (perm (length l) g) as [p g']. cbn in *.
    unfold take. now apply map_nth_perm.
  Qed.

  (** ** score *)
  Lemma voters_ext (row : list V) sh sh' ks : forall j idx, (forall x l, j <= x -> sh x l = sh' x l) ->
    knn_voters row sh j ks idx = knn_voters row sh' j ks idx.
  Proof.
    induction ks as [|k ks IH]; intros j idx E; [reflexivity|]. cbn [knn_voters].
    destruct (filter _ _); [rewrite E by lia|]; f_equal; apply IH; intros x m Hx; apply E; lia.
  Qed.
  Lemma voters_ex (row : list V) ks : forall j idx g, exists sh, (forall x, permuter (sh x)) /\
    knn_voters row sh j ks idx = fst (voters_rng perm row ks idx g).
  Proof.
    induction ks as [|k ks IH]; intros j idx g; [exists (fun _ l => l); split; [intros x l; apply Permutation_refl|reflexivity]|].
    cbn [knn_voters voters_rng]. destruct (filter _ (prefix idx k)) as [|a fin] eqn:F.
    - destruct (permuted perm idx g) as [idx' g1] eqn:E1.
      destruct (IH (S j) idx' g1) as (sh & Hs & E). destruct (voters_rng perm row ks idx' g1) as [r g2]. cbn [fst] in *.
      exists (fun x => if x =? j then at_state g else sh x). split.
      + intros x. destruct (x =? j); [apply at_state_perm|apply Hs].
      + rewrite Nat.eqb_refl. replace (at_state g idx) with idx' by (unfold at_state; now rewrite E1). f_equal.
        rewrite <- E. apply voters_ext. intros x l Hx. destruct (Nat.eqb_spec x j); [lia|reflexivity].
    - destruct (IH (S j) idx g) as (sh & Hs & E). destruct (voters_rng perm row ks idx g) as [r g2]. cbn [fst] in *.
      exists sh. split; [exact Hs|]. now rewrite E.
  Qed.

  Lemma points_ex (argsort : list V -> list nat) metric sampled (D : arr2 V) ks n n_cl classes vclasses cand points : NoDup points ->
    forall st g, exists rp sh, (forall i, permuter (rp i)) /\ (forall i j, permuter (sh i j)) /\
      fold_left (fun st i => zip_upd n i (nth i classes 0) (knn_point argsort rp sh metric sampled D ks n_cl vclasses cand i) st) points st =
      fst (points_rng perm argsort metric sampled D ks n n_cl classes vclasses cand points st g).
  Proof.
    induction points as [|i l IH]; intros ND st g.
    { exists (fun _ l => l), (fun _ _ l => l). split; [intros i l; apply Permutation_refl|]. split; [intros i j l; apply Permutation_refl|reflexivity]. }
    inversion ND as [|? ? Hi ND']; subst. cbn [fold_left points_rng].
    unfold point_rng. destruct (permuted perm cand g) as [rp0 g1] eqn:E1.
    destruct (voters_ex (knn_row metric sampled D i) ks 0 (knn_idx argsort metric (knn_row metric sampled D i) rp0) g1) as (sh0 & Hs0 & Ev).
    destruct (voters_rng perm _ ks _ g1) as [vs g2]. cbn [fst] in Ev.
    destruct (IH ND' (zip_upd n i (nth i classes 0) (map (fun nn => knn_vote n_cl (take 0 vclasses nn)) vs) st) g2) as (rp & sh & Hrp & Hsh & E).
    exists (fun x => if x =? i then at_state g else rp x), (fun x => if x =? i then sh0 else sh x).
    split; [intros x; destruct (x =? i); [apply at_state_perm|apply Hrp]|].
    split; [intros x; destruct (x =? i); [apply Hs0|apply Hsh]|].
    rewrite <- E. clear E. unfold knn_point at 2. rewrite Nat.eqb_refl.
    replace (at_state g cand) with rp0 by (unfold at_state; now rewrite E1). rewrite Ev.
    generalize (zip_upd n i (nth i classes 0) (map (fun nn => knn_vote n_cl (take 0 vclasses nn)) vs) st). clear - Hi.
    induction l as [|a l IH]; intros st; [reflexivity|]. cbn [fold_left].
    replace (knn_point argsort (fun x => if x =? i then at_state g else rp x) (fun x => if x =? i then sh0 else sh x) metric sampled D ks n_cl vclasses cand a)
      with (knn_point argsort rp sh metric sampled D ks n_cl vclasses cand a).
    2:{ unfold knn_point. destruct (Nat.eqb_spec a i) as [->|]; [exfalso; apply Hi; now left|reflexivity]. }
    apply IH. intros C. apply Hi. now right.
  Qed.

  (** ** r_precision *)
  Variable argpart : list V -> list nat -> list nat.

  Lemma worker_ext rp rp' sh sh' (S : smat V) y rel yp inc i : rp i = rp' i -> sh i = sh' i ->
    rprec_worker argpart rp sh S y rel yp inc i = rprec_worker argpart rp' sh' S y rel yp inc i.
  Proof. intros E1 E2. unfold rprec_worker. now rewrite E1, E2. Qed.

  Lemma worker_ex (S : smat V) y rel yp inc i g : exists rp sh, permuter rp /\ (forall j : nat, permuter (sh j)) /\
    rprec_worker argpart (fun _ => rp) (fun _ => sh) S y rel yp inc i =
    bind (rprec_rng perm argpart S y rel yp inc i g) (fun r => Ok (fst r)).
  Proof.
    exists (at_state g), (fun _ => at_state (snd (permuted perm (seq 0 (length (sp_cols S i))) g))).
    split; [apply at_state_perm|]. split; [intros _; apply at_state_perm|].
    unfold rprec_worker, rprec_rng. destruct (Z.eqb _ 0); [reflexivity|]. unfold at_state at 1.
    destruct (permuted perm (seq 0 (length (sp_cols S i))) g) as [p g1]. cbn [fst snd].
    destruct (sp_ranked argpart S i p _) as [l|e]; [|reflexivity]. cbn [bind].
    destruct (filter _ (prefix (tl l) _)).
    - unfold at_state. destruct (permuted perm (prefix (tl l) _) g1) as [idx g2]. cbn [fst].
      destruct (Nat.eqb _ 0); reflexivity.
    - destruct (Nat.eqb _ 0); reflexivity.
  Qed.

  Lemma chunk_ex (S : smat V) y rel yp inc l : NoDup l -> forall g,
    exists rp sh, (forall i, permuter (rp i)) /\ (forall i j, permuter (sh i j)) /\
      mapM (rprec_worker argpart rp sh S y rel yp inc) l =
      bind (chunk_rng perm argpart S y rel yp inc l g) (fun r => Ok (fst r)).
  Proof.
    induction l as [|i l IH]; intros ND g.
    { exists (fun _ l => l), (fun _ _ l => l). split; [intros i l; apply Permutation_refl|]. split; [intros i j l; apply Permutation_refl|reflexivity]. }
    inversion ND as [|? ? Hi ND']; subst. cbn [mapM chunk_rng].
    destruct (worker_ex S y rel yp inc i g) as (rp0 & sh0 & Hr0 & Hs0 & E0).
    destruct (IH ND' (match rprec_rng perm argpart S y rel yp inc i g with Ok r => snd r | Raise _ => g end)) as (rp & sh & Hr & Hs & E).
    exists (fun x => if x =? i then rp0 else rp x), (fun x => if x =? i then sh0 else sh x).
    split; [intros x; destruct (x =? i); [exact Hr0|apply Hr]|].
    split; [intros x; destruct (x =? i); [exact Hs0|apply Hs]|].
    rewrite (worker_ext _ (fun _ => rp0) _ (fun _ => sh0)) by now rewrite Nat.eqb_refl. rewrite E0.
    destruct (rprec_rng perm argpart S y rel yp inc i g) as [r|e]; [|reflexivity]. cbn [bind].
    rewrite (mapM_ext _ (rprec_worker argpart rp sh S y rel yp inc)).
    - rewrite E. destruct (chunk_rng _ _ _ _ _ _ _ l (snd r)) as [rs|e]; reflexivity.
    - intros x Hx. apply worker_ext; (destruct (Nat.eqb_spec x i) as [->|]; [contradiction|reflexivity]).
  Qed.

  Lemma chunks_ex (S : smat V) y rel yp inc who cs : NoDup (concat cs) -> forall c wg,
    exists rp sh, (forall i, permuter (rp i)) /\ (forall i j, permuter (sh i j)) /\
      mapM (rprec_worker argpart rp sh S y rel yp inc) (concat cs) =
      chunks_rng perm argpart S y rel yp inc who c cs wg.
  Proof.
    induction cs as [|l cs IH]; intros ND c wg.
    { exists (fun _ l => l), (fun _ _ l => l). split; [intros i l; apply Permutation_refl|]. split; [intros i j l; apply Permutation_refl|reflexivity]. }
    cbn [concat] in ND |- *. cbn [chunks_rng].
    assert (N1 : NoDup l). { clear - ND. induction l as [|a l IH]; [constructor|]. cbn in ND. inversion ND; subst. constructor; [|auto]. intros C. apply H1, in_or_app. now left. }
    assert (N2 : NoDup (concat cs)). { clear - ND. induction l as [|a l IH]; [exact ND|]. cbn in ND. inversion ND; subst. auto. }
    assert (DJ : forall x, In x (concat cs) -> ~ In x l).
    { intros x Hx Hl. apply in_split in Hl as (a & b & ->). rewrite <- app_assoc in ND. cbn [app] in ND.
      apply NoDup_remove_2 in ND. apply ND. apply in_or_app. right. apply in_or_app. now right. }
    destruct (chunk_ex S y rel yp inc l N1 (wg (who c))) as (rp1 & sh1 & Hr1 & Hs1 & E1).
    destruct (IH N2 (1 + c) (upd wg (who c) (match chunk_rng perm argpart S y rel yp inc l (wg (who c)) with Ok r => snd r | Raise _ => wg c end)))
      as (rp2 & sh2 & Hr2 & Hs2 & E2).
    exists (fun x => if existsb (Nat.eqb x) l then rp1 x else rp2 x), (fun x => if existsb (Nat.eqb x) l then sh1 x else sh2 x).
    split; [intros x; destruct (existsb _ l); [apply Hr1|apply Hr2]|].
    split; [intros x; destruct (existsb _ l); [apply Hs1|apply Hs2]|].
    rewrite mapM_app. rewrite (mapM_ext _ (rprec_worker argpart rp1 sh1 S y rel yp inc) l).
    2:{ intros x Hx. replace (existsb (Nat.eqb x) l) with true; [|symmetry; apply existsb_exists; exists x; split; [exact Hx|apply Nat.eqb_refl]].
        apply worker_ext; (replace (existsb (Nat.eqb x) l) with true; [reflexivity|symmetry; apply existsb_exists; exists x; split; [exact Hx|apply Nat.eqb_refl]]). }
    rewrite (mapM_ext _ (rprec_worker argpart rp2 sh2 S y rel yp inc) (concat cs)).
    2:{ intros x Hx. apply worker_ext; (destruct (existsb (Nat.eqb x) l) eqn:X; [|reflexivity];
        apply existsb_exists in X as (z & Hz & Ez); apply Nat.eqb_eq in Ez; subst z; now apply DJ in Hx). }
    rewrite E1. destruct (chunk_rng perm argpart S y rel yp inc l (wg (who c))) as [r|e]; [|reflexivity]. cbn [bind].
    rewrite E2. destruct (chunks_rng _ _ _ _ _ _ _ _ _ cs _); reflexivity.
  Qed.

  Lemma chunks_concat_gen n k : forall a, 100 * a + 100 * k <= n + 99 ->
    concat (map (fun c => seq (100 * c) (Nat.min 100 (n - 100 * c))) (seq a k)) = seq (100 * a) (Nat.min (100 * k) (n - 100 * a)).
  Proof.
    induction k as [|k IH]; intros a Hk; [rewrite Nat.mul_0_r; reflexivity|]. cbn [seq map concat]. rewrite IH by lia.
    destruct (Nat.eq_dec k 0) as [->|Hk0].
    - rewrite Nat.mul_0_r. cbn [Nat.min seq]. rewrite app_nil_r. f_equal; lia.
    - replace (Nat.min 100 (n - 100 * a)) with 100 by lia. replace (100 * S a) with (100 * a + 100) by lia.
      rewrite <- seq_app. f_equal. lia.
  Qed.
  Lemma chunks_concat n : concat (chunks_of n) = seq 0 n.
  Proof.
    unfold chunks_of. pose proof (Nat.div_mod (n + 99) 100 ltac:(lia)) as D. pose proof (Nat.mod_upper_bound (n + 99) 100 ltac:(lia)) as B.
    rewrite chunks_concat_gen by lia. rewrite Nat.mul_0_r, Nat.sub_0_r. f_equal. lia.
  Qed.
End Rng.

(** ** which permutation an object gets *)
From Verif Require Import Properties_HubRng.
Section Turns.
  Context {V : Type} {N : Num V} {toX : V -> xr} (CL : CmpLaws V N toX) {G : Type}.
  Variable perm : nat -> G -> list nat * G.
  Hypothesis HG : generator perm.
  Variable argpart : list V -> list nat -> list nat.
  Hypothesis AP : argpart_ok argpart.
  Variables (S : smat V) (lab : list Z) (yp m : nat).
  Hypothesis HC : scol S = length lab.
  Hypothesis Hm : 2 <= m.
  Hypothesis Hrow : forall i, i < length lab -> clean_row S i /\ length (sp_cols S i) = m /\
    (forall x, linked S i x -> nisfin (sval S i x) = true) /\ relevant lab i <> 0.
  Let inc := class_index (ecl lab) int_min.

  Lemma take_seq (p : list nat) c : (forall x, In x p -> x < c) -> take 0 (seq 0 c) p = p.
  Proof.
    intros H. unfold take. rewrite <- (map_id p) at 2. apply map_ext_in. intros x Hx. now rewrite seq_nth by auto.
  Qed.
  Lemma permuted_seq c g : permuted perm (seq 0 c) g = perm c g.
  Proof.
    unfold permuted. rewrite seq_length. specialize (HG c g). destruct (perm c g) as [p g']. cbn [fst] in HG.
    f_equal. apply take_seq. intros x Hx. apply (Permutation_in _ HG), in_seq in Hx. lia.
  Qed.

  Lemma worker_step rp sh i g : i < length lab -> rp i (seq 0 m) = fst (perm m g) ->
    rprec_rng perm argpart S (enc lab) (erel lab) yp inc i g =
    bind (rprec_worker argpart rp sh S (enc lab) (erel lab) yp inc i) (fun r => Ok (r, snd (perm m g))).
  Proof.
    intros Hi Hrp. destruct (Hrow i Hi) as (Hcl & Hlen & Hfin & Hrel). unfold rprec_rng, rprec_worker.
    rewrite (rel_relevant lab i Hi). destruct (Z.eqb_spec (Z.of_nat (relevant lab i)) 0) as [E|_]; [lia|].
    rewrite Hlen, Hrp, permuted_seq. pose proof (HG m g) as P. destruct (perm m g) as [p g1]. cbn [fst snd] in *.
    destruct (ranked_spec CL argpart AP S i p [relevant lab i] Hcl ltac:(lia) ltac:(now rewrite Hlen)) as (w & t & Er & Pt & _ & Ht & _).
    change [Z.of_nat (relevant lab i)] with (map Z.of_nat [relevant lab i]). rewrite Er. cbn [bind tl].
    assert (F : filter (fun x => nisfin (sval S i x)) (prefix t (Z.of_nat (relevant lab i))) <> []).
    { assert (Lt : length t = m - 1) by (apply Permutation_length in Pt; cbn [length] in Pt; lia).
      destruct t as [|x t]; [cbn in Lt; lia|]. unfold prefix. destruct (Z.ltb_spec (Z.of_nat (relevant lab i)) 0); [lia|].
      rewrite Nat2Z.id. destruct (relevant lab i) as [|r]; [congruence|]. cbn [firstn filter].
      rewrite Hfin; [discriminate|]. apply stored_linked, (Permutation_in _ Pt). right. now left. }
    destruct (filter _ (prefix t _)) as [|a l]; [congruence|]. destruct (Nat.eqb _ 0); reflexivity.
  Qed.

  Lemma chunk_step rp sh g c : forall a t, a + c <= length lab ->
    (forall i, a <= i < a + c -> rp i (seq 0 m) = draw perm m (t + (i - a)) g) ->
    chunk_rng perm argpart S (enc lab) (erel lab) yp inc (seq a c) (after perm m t g) =
    bind (mapM (rprec_worker argpart rp sh S (enc lab) (erel lab) yp inc) (seq a c)) (fun rs => Ok (rs, after perm m (t + c) g)).
  Proof.
    induction c as [|c IH]; intros a t Ha Hrp; [cbn [seq chunk_rng mapM bind]; now rewrite Nat.add_0_r|].
    cbn [seq chunk_rng mapM]. rewrite (worker_step rp sh a (after perm m t g)).
    - destruct (rprec_worker argpart rp sh S (enc lab) (erel lab) yp inc a) as [r|e]; [|reflexivity]. cbn [bind fst snd].
      rewrite <- after_S, IH.
      + destruct (mapM _ (seq (Datatypes.S a) c)); cbn [bind fst snd]; [|reflexivity].
        replace (t + Datatypes.S c) with (Datatypes.S t + c) by lia. reflexivity.
      + lia.
      + intros i Hi. rewrite Hrp by lia. f_equal. lia.
    - lia.
    - rewrite Hrp by lia. rewrite draw_after. now rewrite Nat.sub_diag, Nat.add_0_r.
  Qed.

  Lemma chunks_step rp sh who g (Hrp : forall i, i < length lab -> rp i (seq 0 m) = draw perm m (earlier who i) g) k :
    forall c wg, 100 * c + 100 * k <= length lab + 99 ->
    (forall w, wg w = after perm m (100 * length (filter (fun x => who x =? w) (seq 0 c))) g) ->
    chunks_rng perm argpart S (enc lab) (erel lab) yp inc who c
      (map (fun c => seq (100 * c) (Nat.min 100 (length lab - 100 * c))) (seq c k)) wg =
    mapM (rprec_worker argpart rp sh S (enc lab) (erel lab) yp inc)
      (concat (map (fun c => seq (100 * c) (Nat.min 100 (length lab - 100 * c))) (seq c k))).
  Proof.
    induction k as [|k IH]; intros c wg Hk Hwg; [reflexivity|]. cbn [seq map concat chunks_rng].
    rewrite mapM_app, Hwg. rewrite (chunk_step rp sh).
    2:{ lia. }
    2:{ intros i Hi. rewrite Hrp by lia. f_equal. unfold earlier.
        replace (i / 100) with c by (apply (Nat.div_unique i 100 c (i - 100 * c)); lia).
        replace (i mod 100) with (i - 100 * c) by (apply (Nat.mod_unique i 100 c); lia). reflexivity. }
    destruct (mapM _ (seq (100 * c) _)) as [rs|e]; [|reflexivity]. cbn [bind fst snd].
    destruct k as [|k].
    { cbn [seq map chunks_rng concat mapM bind]. reflexivity. }
    rewrite IH; [reflexivity|lia|]. intros w. unfold upd. change (1 + c) with (Datatypes.S c).
    rewrite seq_S, filter_app, app_length. cbn [Nat.add filter]. destruct (Nat.eqb_spec w (who c)) as [->|Hw].
    - rewrite Nat.eqb_refl. cbn [length]. f_equal. lia.
    - destruct (Nat.eqb_spec (who c) w); [congruence|]. cbn [length]. rewrite Hwg. f_equal. lia.
  Qed.
End Turns.
