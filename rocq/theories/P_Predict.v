(** Proofs about predict with confusion matrices (M_Predict.v). *)
From Coq Require Import String.
From Coq Require Import ZArith List Arith Lia Bool Permutation.
From Verif Require Import Py Num Arr Sort Conc S_Neighbors S_KNN M_IO M_GK M_SNN M_KNN M_LS M_MPEmpiric M_SNNSample M_LSSparse M_Predict.
Import ListNotations.
Local Open Scope nat_scope.

(** a loop that appends one result per step and updates a state on the way *)
Lemma foldM_collect {A B S} (f : A -> S -> result (B * S)) (g : A -> result B) (u : A -> B -> S -> S) l :
  (forall a s, In a l -> f a s = bind (g a) (fun b => Ok (b, u a b s))) ->
  forall pre s,
  foldM (fun '(bs, s) a => bind (f a s) (fun '(b, s') => Ok (bs ++ [b], s'))) l (pre, s)
  = bind (mapM g l) (fun bs => Ok (pre ++ bs, fold_left (fun s ab => u (fst ab) (snd ab) s) (combine l bs) s)).
Proof.
  induction l as [|a l IH]; intros H pre s; cbn [foldM mapM bind].
  - now rewrite app_nil_r.
  - rewrite (H a s) by now left. destruct (g a) as [b|e]; cbn [bind]; [|reflexivity].
    rewrite IH by (intros; apply H; now right).
    destruct (mapM g l) as [bs|e]; cbn [bind]; [|reflexivity].
    cbn [combine fold_left fst snd]. now rewrite <- app_assoc.
Qed.

(** the counts added by point [i] *)
Definition add_outputs (classes : list (list nat)) (i j : nat) (ys : list nat) (cm : cmat4) : cmat4 :=
  fold_left (fun cm lp => cmat_inc cm j (fst lp) (nth (fst lp) (nth i classes []) 0) (snd lp))
    (combine (seq 0 (length ys)) ys) cm.
Definition add_ks (classes : list (list nat)) (i : nat) (yss : list (list nat)) (cm : cmat4) : cmat4 :=
  fold_left (fun cm jy => add_outputs classes i (fst jy) (snd jy) cm)
    (combine (seq 0 (length yss)) yss) cm.

Lemma predict_outputs_eq classes vclasses c i j nn cm :
  predict_outputs classes vclasses c i j nn cm
  = bind (mapM (fun l => predict_vote (map (fun x => nth l (nth x vclasses []) 0) nn)) (seq 0 c))
      (fun ys => Ok (ys, add_outputs classes i j ys cm)).
Proof.
  unfold predict_outputs, add_outputs.
  set (g := fun l => predict_vote (map (fun x => nth l (nth x vclasses []) 0) nn)).
  pose proof (foldM_collect
    (fun l cm => bind (g l) (fun p => Ok (p, cmat_inc cm j l (nth l (nth i classes []) 0) p)))
    g (fun l p cm => cmat_inc cm j l (nth l (nth i classes []) 0) p) (seq 0 c)
    (fun a s _ => eq_refl) [] cm) as E.
  transitivity (bind (mapM g (seq 0 c)) (fun bs => Ok ([] ++ bs,
     fold_left (fun s ab => cmat_inc s j (fst ab) (nth (fst ab) (nth i classes []) 0) (snd ab))
       (combine (seq 0 c) bs) cm))).
  - rewrite <- E. clear E.
    assert (F : forall ls pre cm,
      foldM (fun '(ys, cm) l => bind (predict_vote (map (fun x => nth l (nth x vclasses []) 0) nn))
               (fun p => Ok (ys ++ [p], cmat_inc cm j l (nth l (nth i classes []) 0) p))) ls (pre, cm)
      = foldM (fun '(bs, s) a => bind (bind (g a) (fun p => Ok (p, cmat_inc s j a (nth a (nth i classes []) 0) p)))
               (fun '(b, s') => Ok (bs ++ [b], s'))) ls (pre, cm)); [|apply F].
    clear. induction ls as [|l ls IH]; intros pre cm; [reflexivity|]. cbn [foldM bind]. fold (g l).
    destruct (g l); cbn [bind]; [apply IH|reflexivity].
  - destruct (mapM g (seq 0 c)) as [ys|] eqn:Em; [|reflexivity]. cbn [bind app].
    assert (L : length ys = c) by (apply mapM_length in Em; now rewrite seq_length in Em).
    rewrite L. reflexivity.
Qed.

Lemma predict_ks_eq classes vclasses c i voters cm :
  predict_ks classes vclasses c i voters cm
  = bind (mapM (fun nn => mapM (fun l => predict_vote (map (fun x => nth l (nth x vclasses []) 0) nn)) (seq 0 c)) voters)
      (fun yss => Ok (yss, add_ks classes i yss cm)).
Proof.
  unfold predict_ks, add_ks.
  set (g := fun nn => mapM (fun l => predict_vote (map (fun x => nth l (nth x vclasses []) 0) nn)) (seq 0 c)).
  rewrite (foldM_collect
    (fun j cm => predict_outputs classes vclasses c i j (nth j voters []) cm)
    (fun j => g (nth j voters [])) (fun j ys cm => add_outputs classes i j ys cm) (seq 0 (length voters)))
    by (intros j s _; rewrite predict_outputs_eq; reflexivity).
  replace (mapM (fun j => g (nth j voters [])) (seq 0 (length voters))) with (mapM g voters).
  2:{ generalize g. clear. induction voters as [|v vs IH]; intros g; [reflexivity|].
      assert (E : mapM (fun j => g (nth j (v :: vs) [])) (map S (seq 0 (length vs)))
        = mapM (fun j => g (nth j vs [])) (seq 0 (length vs))).
      { generalize (seq 0 (length vs)) as l. induction l as [|j l IHl]; [reflexivity|].
        cbn [map mapM nth]. cbn [nth] in IHl. rewrite IHl. reflexivity. }
      cbn [length seq]. rewrite <- seq_shift. cbn [mapM]. rewrite E, <- IH. reflexivity. }
  destruct (mapM g voters) as [yss|] eqn:Em; [|reflexivity]. cbn [bind app].
  apply mapM_length in Em. rewrite Em. reflexivity.
Qed.

Lemma add_outputs_at classes i j ys cm j' l' a b :
  add_outputs classes i j ys cm j' l' a b
  = cm j' l' a b + (if (j' =? j) && (l' <? length ys) && (nth l' (nth i classes []) 0 =? a) && (nth l' ys 0 =? b)
                    then 1 else 0).
Proof.
  unfold add_outputs. 
  assert (G : forall s0 cm, fold_left (fun cm lp => cmat_inc cm j (fst lp) (nth (fst lp) (nth i classes []) 0) (snd lp))
    (combine (seq s0 (length ys)) ys) cm j' l' a b
    = cm j' l' a b + (if (j' =? j) && (s0 <=? l') && (l' - s0 <? length ys)
        && (nth l' (nth i classes []) 0 =? a) && (nth (l' - s0) ys 0 =? b) then 1 else 0)).
  { clear cm. induction ys as [|y ys IH]; intros s0 cm; cbn [length seq combine fold_left].
    - rewrite !andb_false_r. cbn. lia.
    - rewrite IH. cbn [fst snd]. unfold cmat_inc.
      destruct (Nat.eqb_spec j' j) as [Ej|Ej]; cbn [andb]; [|reflexivity].
      destruct (Nat.eqb_spec l' s0) as [->|Hl]; cbn [andb].
      + rewrite Nat.sub_diag. replace (S s0 <=? s0) with false by (symmetry; apply Nat.leb_gt; lia).
        rewrite Nat.leb_refl. cbn [andb nth].
        change (0 <? S (length ys)) with true. cbn [andb].
        destruct (Nat.eqb_spec a (nth s0 (nth i classes []) 0)), (Nat.eqb_spec (nth s0 (nth i classes []) 0) a);
          cbn [andb]; try congruence; try lia.
        destruct (Nat.eqb_spec b y), (Nat.eqb_spec y b); try congruence; lia.
      + destruct (Nat.leb_spec (S s0) l').
        * replace (s0 <=? l') with true by (symmetry; apply Nat.leb_le; lia).
          replace (l' - s0) with (S (l' - S s0)) by lia. cbn [andb nth].
          change (S (l' - S s0) <? S (length ys)) with (l' - S s0 <? length ys). reflexivity.
        * replace (s0 <=? l') with false by (symmetry; apply Nat.leb_gt; lia). reflexivity. }
  rewrite G. rewrite Nat.sub_0_r. cbn [Nat.leb andb]. rewrite andb_true_r. reflexivity.
Qed.

Lemma add_ks_at classes i yss cm j l a b :
  add_ks classes i yss cm j l a b
  = cm j l a b + (if (j <? length yss) && (l <? length (nth j yss [])) && (nth l (nth i classes []) 0 =? a)
                     && (nth l (nth j yss []) 0 =? b) then 1 else 0).
Proof.
  unfold add_ks.
  assert (G : forall s0 cm, fold_left (fun cm jy => add_outputs classes i (fst jy) (snd jy) cm)
    (combine (seq s0 (length yss)) yss) cm j l a b
    = cm j l a b + (if (s0 <=? j) && (j - s0 <? length yss) && (l <? length (nth (j - s0) yss []))
        && (nth l (nth i classes []) 0 =? a) && (nth l (nth (j - s0) yss []) 0 =? b) then 1 else 0)).
  { clear cm. induction yss as [|y yss IH]; intros s0 cm; cbn [length seq combine fold_left].
    - rewrite !andb_false_r. cbn. lia.
    - rewrite IH. cbn [fst snd]. rewrite add_outputs_at.
      destruct (Nat.eqb_spec j s0) as [->|Hj]; cbn [andb].
      + rewrite Nat.sub_diag. replace (S s0 <=? s0) with false by (symmetry; apply Nat.leb_gt; lia).
        rewrite Nat.leb_refl. cbn [andb nth]. change (0 <? S (length yss)) with true. cbn [andb]. lia.
      + destruct (Nat.leb_spec (S s0) j).
        * replace (s0 <=? j) with true by (symmetry; apply Nat.leb_le; lia).
          replace (j - s0) with (S (j - S s0)) by lia. cbn [andb nth].
          change (S (j - S s0) <? S (length yss)) with (j - S s0 <? length yss). lia.
        * replace (s0 <=? j) with false by (symmetry; apply Nat.leb_gt; lia). cbn [andb]. lia. }
  rewrite G. rewrite Nat.sub_0_r. cbn [Nat.leb andb]. reflexivity.
Qed.

Section P.
  Context {V : Type} {N : Num V}.
  Variable argsort : list V -> list nat.
  Variable rp : nat -> list nat -> list nat.
  Variable sh : nat -> nat -> list nat -> list nat.

  (** the predictions of [predict_full] are those of [predict] on the dense
      matrix, the confusion matrices are their counts *)
  Lemma predict_full_eq (A : matarg V) target ks metric test sample :
    (match A, sample with MSparse _, Some _ => False | _, _ => True end) ->
    predict_full argsort rp sh A target ks metric test sample
    = bind (predict argsort rp sh (dense_of A) target ks metric test sample)
        (fun y => Ok (y,
          fold_left (fun cm iy => add_ks (map (map (class_index (unique_labels (concat target)))) target)
                                         (fst iy) (snd iy) cm)
            (combine (seq 0 (nrow (dense_of A))) y) cmat0)).
  Proof.
    intros HS. unfold predict_full, predict.
    assert (E : match sample with
                | None => check_distance_matrix_shape (shape_arg A)
                | Some s => check_sample_shape_fits (shape_arg A) (Dense [length s])
                end =
                match sample with
                | None => check_distance_matrix_shape (Dense [nrow (dense_of A); ncol (dense_of A)])
                | Some s => check_sample_shape_fits (Dense [nrow (dense_of A); ncol (dense_of A)]) (Dense [length s])
                end).
    { destruct A as [D|Sm], sample as [s|]; try reflexivity. contradiction. }
    rewrite E. clear E HS. generalize (dense_of A) as D. intros D.
    destruct (match sample with None => _ | Some _ => _ end) as [[]|e]; cbn [bind]; [|reflexivity].
    destruct (check_valid_metric_parameter metric) as [[]|e]; cbn [bind]; [|reflexivity].
    destruct (guard _ UnboundLocalError) as [[]|e]; cbn [bind]; [|reflexivity].
    destruct (guard (_ <? _) IndexError) as [[]|e]; cbn [bind]; [|reflexivity].
    destruct (guard _ IndexError) as [[]|e]; cbn [bind]; [|reflexivity].
    cbv zeta.
    set (classes := map (map (class_index (unique_labels (concat target)))) target).
    match goal with |- _ = bind (mapM ?h _) _ => set (g := h) end.
    match goal with |- foldM (fun '(y, cm) i => bind (@?f i cm) _) _ _ = _ => 
      rewrite (foldM_collect f g (fun i yi cm => add_ks classes i yi cm) (seq 0 (nrow D))) end.
    - destruct (mapM g (seq 0 (nrow D))); reflexivity.
    - intros i cm _. rewrite predict_ks_eq. reflexivity.
  Qed.

  Lemma fold_count classes (y : list (list (list nat))) j l a b : forall s0 cm,
    fold_left (fun cm iy => add_ks classes (fst iy) (snd iy) cm) (combine (seq s0 (length y)) y) cm j l a b
    = cm j l a b + length (filter (fun i => (j <? length (nth (i - s0) y [])) && (l <? length (nth j (nth (i - s0) y []) []))
        && (nth l (nth i classes []) 0 =? a) && (nth l (nth j (nth (i - s0) y []) []) 0 =? b)) (seq s0 (length y))).
  Proof.
    induction y as [|yi y IH]; intros s0 cm; cbn [length seq combine fold_left filter]; [cbn; lia|].
    rewrite IH. cbn [fst snd]. rewrite add_ks_at. rewrite Nat.sub_diag. cbn [nth].
    match goal with |- _ = _ + length (if ?c then ?p :: filter ?f2 ?q else filter ?f2 ?q) =>
      transitivity (cm j l a b + (if c then 1 else 0) + length (filter f2 q)); [|destruct c; cbn [length]; lia];
      rewrite (filter_ext_in f2 (fun i => (j <? length (nth (i - S s0) y [])) && (l <? length (nth j (nth (i - S s0) y []) []))
        && (nth l (nth i classes []) 0 =? a) && (nth l (nth j (nth (i - S s0) y []) []) 0 =? b))) end.
    - reflexivity.
    - intros i Hi. apply in_seq in Hi. replace (i - s0) with (S (i - S s0)) by lia. reflexivity.
  Qed.
End P.
