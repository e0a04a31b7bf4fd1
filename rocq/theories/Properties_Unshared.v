(** C155: an object that shares no memory with its caller goes through the calls
    as the object of M_Lifecycle.v does, for which every call gets arrays of its own
    (approximate.py:1393-1526). *)
From Coq Require Import String.
From Coq Require Import Reals ZArith List Arith Lia Bool.
From Verif Require Import Py Num NumT Arr Sort Conc M_Dist M_Approx M_ApproxPredict M_Lifecycle M_Shared.
From Verif Require Import Properties_Approx Properties_Lifecycle Properties_Shared.
Import ListNotations.
Local Open Scope nat_scope.

Section Statements.
  Context {V : Type} {N : Num V}.
  Variable vsum : list V -> V.
  Variable sdist : string -> nat -> (nat -> V) -> (nat -> V) -> V.
  Variables (vexp : V -> V) (vsf : V -> V -> V -> V).
  Variable vstore : f64 -> V.
  Variable part : list V -> list nat -> list V.
  Variable argpart : list V -> list nat -> list nat.
  Variable P : par.
  Notation sstep := (sstep vsum sdist vexp vsf vstore part argpart P).
  Notation step := (step vsum sdist vexp vsf vstore part argpart P).
  Notation srun := (srun vsum sdist vexp vsf vstore part argpart P).
  Notation history := (history vsum sdist vexp vsf vstore part argpart P).

  (** the training data and the labels are arrays of the object's own *)
  Definition own_arrays (o : @sobj V) : Prop :=
    match o_fit o with
    | Some f => (exists A, t_X f = XOwn A) /\ (forall r, t_y f <> YRef r)
    | None => True
    end.
  (** the call, with the contents its arrays have at that moment; an assignment is no call *)
  Definition by_value (m : @mem V) (c : @scall V) : option (@call V) :=
    match c with
    | ZFit ind x y => Some (CFit ind (arr m x) (option_map (lab m) y))
    | ZTransform q => Some (CTransform (arr m q))
    | ZPredict q => Some (CPredict (arr m q))
    | _ => None
    end.
  (** the call ended normally *)
  Definition normally (a : @answer V) : bool :=
    match a with AnsFit (Done _) | AnsTrans (Done _) | AnsPred (Done _) | AnsWrite => true | _ => false end.
  (** a call of fit whose arrays will be copied: by sampling, or by the conversion to
      float32 and int32 *)
  Definition copies (m : @mem V) (c : @scall V) : Prop :=
    match c with
    | ZFit _ x y => p_kind P <> KNone \/ arr32 m x = false /\ (forall l, y = Some l -> lab32 m l = false)
    | _ => True
    end.

  Lemma deref_copied m x y (f : @fitted V) :
    p_kind P <> KNone \/ arr32 m x = false /\ (forall l, y = Some l -> lab32 m l = false) ->
    (forall m', deref m' (stored_fit P m x y f) = f) /\ (exists A, t_X (stored_fit P m x y f) = XOwn A) /\
    (forall r, t_y (stored_fit P m x y f) <> YRef r).
  Proof.
    intros H. unfold deref, stored_fit. destruct f as [fX fy fi fe]. cbn.
    destruct (p_kind P).
    - destruct H as [H|(H & L)]; [congruence|]. rewrite H. destruct y as [l|].
      + rewrite (L l eq_refl). destruct fy; (split; [reflexivity|split; [eauto|discriminate]]).
      + destruct fy; (split; [reflexivity|split; [eauto|discriminate]]).
    - destruct fy; (split; [reflexivity|split; [eauto|discriminate]]).
    - destruct fy; (split; [reflexivity|split; [eauto|discriminate]]).
  Qed.
  Lemma view_same m m' o : own_arrays o -> view m' o = view m o.
  Proof.
    intros H. unfold view. f_equal. unfold own_arrays in H. destruct (o_fit o) as [[tX ty ti te]|]; [|reflexivity].
    cbn in *. destruct H as ((A & ->) & Y). unfold deref. cbn. destruct ty as [|r|]; [reflexivity| |reflexivity]. now elim (Y r).
  Qed.

  (** C155: such a call changes the attributes of the object - n_samples, n_train_, the
      attributes of fit, sec_dist_, sec_dist_sparse_ - and ends as if its arrays were nobody else's,
      and an assignment of the caller changes nothing *)
  Theorem C155_as_without_sharing :
    forall m o c m' o' a, sstep (m, o) c (m', o') a -> own_arrays o -> copies m c ->
      own_arrays o' /\
      match by_value m c with
      | Some c' => step (view m o) c' (view m' o') (normally a)
      | None => view m' o' = view m o
      end.
  Proof.
    intros m o c m' o' a S W C.
    remember (m, o) as st eqn:Es. remember (m', o') as st' eqn:Es'.
    destruct S as [m1 o1 ind x y s' r H|m1 o1 q s' r So H|m1 o1 q e So|m1 o1 q s' r So H|m1 o1 q e So|m1 o1 r A E1 E2|m1 o1 r l E1];
      apply pair_equal_spec in Es as (-> & ->); apply pair_equal_spec in Es' as (<- & <-); cbn [by_value].
    - cbn in C.
      assert (NR : normally (AnsFit r) = match r with Done _ => true | _ => false end) by (destruct r; reflexivity). rewrite NR.
      assert (G : own_arrays (SObj (e_ns s') (e_n s') (match r with Done _ => option_map (stored_fit P m x y) (e_fit s') | _ => o_fit o end) (e_sec s') (e_sparse s')) /\
                  view m (SObj (e_ns s') (e_n s') (match r with Done _ => option_map (stored_fit P m x y) (e_fit s') | _ => o_fit o end) (e_sec s') (e_sparse s')) = s').
      { destruct H as [e H1|e H1 H2|f H1 H2]; cbn.
        - split; [exact W|reflexivity].
        - split; [exact W|reflexivity].
        - destruct (deref_copied m x y f C) as (D & A1 & A2). split; [split; assumption|]. unfold view. cbn. now rewrite D. }
      destruct G as (G1 & G2). split; [exact G1|]. rewrite G2. now constructor.
    - split; [exact W|].
      assert (NR : normally (AnsTrans r) = match r with Done _ => true | _ => false end) by (destruct r; reflexivity). rewrite NR.
      replace (view m (SObj (o_ns o) (o_n o) (o_fit o) (e_sec s') (e_sparse s'))) with s'; [now constructor|].
      destruct H; reflexivity.
    - exfalso. unfold sound in So. unfold own_arrays in W. destruct (o_fit o) as [f|]; [|discriminate]. destruct W as ((A & E) & _). rewrite E in So. discriminate.
    - split; [exact W|].
      assert (NR : normally (AnsPred r) = match r with Done _ => true | _ => false end) by (destruct r; reflexivity). rewrite NR.
      replace (view m (SObj (o_ns o) (o_n o) (o_fit o) (e_sec s') (e_sparse s'))) with s'; [now constructor|].
      assert (K : forall s1 r1, do_transform vsum sdist vexp vsf vstore part argpart P (view m o) (arr m q) s1 r1 ->
        e_ns s1 = o_ns o /\ e_n s1 = o_n o /\ e_fit s1 = option_map (deref m) (o_fit o)) by (intros s1 r1 T; destruct T; cbn; auto).
      destruct H as [|s1 e U T|s1 D e U T|s1 D F f U T]; [reflexivity|..];
        destruct (K _ _ T) as (K1 & K2 & K3); unfold view; cbn; rewrite <- K1, <- K2, <- K3; try reflexivity; now destruct s1.
    - exfalso. unfold sound in So. unfold own_arrays in W. destruct (o_fit o) as [f|]; [|discriminate]. destruct W as ((A & E) & _). rewrite E in So. discriminate.
    - split; [exact W|]. apply view_same, W.
    - split; [exact W|]. apply view_same, W.
  Qed.

  (** every call of fit in the run copies, from the first memory [m] on (dtypes never change) *)
  Lemma step_dtypes st c st' a : sstep st c st' a -> arr32 (fst st') = arr32 (fst st) /\ lab32 (fst st') = lab32 (fst st).
  Proof. destruct 1; cbn; auto. Qed.
  Lemma copies_dtypes m m' c : arr32 m' = arr32 m -> lab32 m' = lab32 m -> copies m c -> copies m' c.
  Proof. intros A L. destruct c; cbn; auto. now rewrite A, L. Qed.

  (** the calls in a run, each with the contents of its arrays at that moment and with
      how it ended *)
  Inductive calls_of (st : mem * sobj) : list (@call V * bool) -> mem * sobj -> Prop :=
  | co_nil : calls_of st [] st
  | co_snoc l c a st1 st2 : calls_of st l st1 -> sstep st1 c st2 a ->
      calls_of st (l ++ match by_value (fst st1) c with Some c' => [(c', normally a)] | None => [] end) st2.
  Definition never_shared (m : @mem V) : Prop := p_kind P <> KNone \/ (forall x, arr32 m x = false) /\ (forall l, lab32 m l = false).

  (** C155: so any run of calls and assignments that begins with a new object, with a
      sample or without arrays of float32 and int32, leads to the attributes that the
      calls alone lead to if every array is passed by value *)
  Theorem C155_history_without_sharing :
    forall m ns l m' o', never_shared m ->
      calls_of (m, SObj ns None None None None) l (m', o') -> history (fresh ns) l (view m' o').
  Proof.
    intros m ns l m' o' NS H. set (st := (m, SObj ns None None None None)) in H. remember (m', o') as st' eqn:E.
    enough (G : history (fresh ns) l (view (fst st') (snd st')) /\ own_arrays (snd st') /\ arr32 (fst st') = arr32 m /\ lab32 (fst st') = lab32 m).
    { rewrite E in G. apply G. }
    clear E. induction H as [|l c a [m1 o1] [m2 o2] H (IH1 & IH2 & IH3 & IH4) S].
    - cbn. repeat split. constructor.
    - cbn [fst snd] in *.
      assert (C : copies m1 c).
      { destruct c; cbn; auto. destruct NS as [NS|(N1 & N2)]; [now left|right]. rewrite IH3, IH4. auto. }
      destruct (C155_as_without_sharing _ _ _ _ _ _ S IH2 C) as (W & V1). destruct (step_dtypes _ _ _ _ S) as (D1 & D2). cbn in D1, D2.
      split; [|repeat split; [exact W|congruence|congruence]].
      destruct (by_value m1 c) as [c'|].
      + econstructor; eassumption.
      + rewrite app_nil_r, V1. exact IH1.
  Qed.
End Statements.

(** fit to the points 0 and 10, then an assignment to the array, then transform *)
Example C155_unshared_case : exists o,
  never_shared PS1 (mem0 false [0; 10]%Z [1]%Z [4; 5]%Z) /\
  calls_of fsum sq noexp nosf (fun x => x) (ref_part (V := f64)) (ref_argpart (V := f64)) PS1
    (mem0 false [0; 10]%Z [1]%Z [4; 5]%Z, SObj 2 None None None None)
    [(CFit [] (line [0; 10]%Z) (Some [4; 5]%Z), true); (CTransform (line [1]%Z), true)] (m_data false, o).
Proof.
  set (m := mem0 false [0; 10]%Z [1]%Z [4; 5]%Z).
  assert (FC : fit_check (line [0; 10]%Z) = Ok tt) by (vm_compute; reflexivity).
  destruct (core_fit fsum sq (ref_part (V := f64)) (ref_argpart (V := f64)) PS1 2 [] (line [0; 10]%Z) (Some [4; 5]%Z)) as [f|e] eqn:CF; [|discriminate CF].
  assert (S1 := z_fit fsum sq noexp nosf (fun x => x) (ref_part (V := f64)) (ref_argpart (V := f64)) PS1 m (SObj 2 None None None None) [] 0 (Some 0) _ _
    (df_ok fsum sq (ref_part (V := f64)) (ref_argpart (V := f64)) PS1 (view m (SObj 2 None None None None)) [] _ _ f FC CF)).
  match type of S1 with sstep _ _ _ _ _ _ _ _ _ _ (_, ?o1) _ => set (o := o1) in S1 end.
  assert (S2 := z_write fsum sq noexp nosf (fun x => x) (ref_part (V := f64)) (ref_argpart (V := f64)) PS1 m o 0 (line [50; 1]%Z) eq_refl eq_refl).
  change (Mem (set_at (arr m) 0 (line [50; 1]%Z)) (arr32 m) (lab m) (lab32 m)) with (m_data false) in S2.
  assert (FX : f_X f = rows_at (line [0; 10]%Z) (seq 0 2)) by (injection CF as <-; reflexivity).
  assert (VF : e_fit (view (m_data false) o) = Some f).
  { injection CF as <-. reflexivity. }
  assert (CT : core_transform fsum sq noexp nosf (fun x => x) (ref_part (V := f64)) (ref_argpart (V := f64)) PS1 2 f (line [1]%Z) (Ok (cd (line [0; 10]%Z) (line [1]%Z)))).
  { replace (Ok (cd (line [0; 10]%Z) (line [1]%Z))) with (transform_without_hr sq (p_metric PS1) (f_X f) (line [1]%Z)); [now apply ct_none|].
    rewrite FX. unfold transform_without_hr.
    assert (TC : trans_check (line [1]%Z) (rows_at (line [0; 10]%Z) (seq 0 2)) = Ok tt) by (vm_compute; reflexivity). rewrite TC. reflexivity. }
  assert (CA : check_array (line [1]%Z) = Ok tt) by (vm_compute; reflexivity).
  assert (S3 := z_transform fsum sq noexp nosf (fun x => x) (ref_part (V := f64)) (ref_argpart (V := f64)) PS1 (m_data false) o 1 _ _ eq_refl
    (dt_ok fsum sq noexp nosf (fun x => x) (ref_part (V := f64)) (ref_argpart (V := f64)) PS1 (view (m_data false) o) (line [1]%Z) f 2 _ _ CA VF eq_refl CT eq_refl)).
  eexists. split; [right; split; reflexivity|].
  assert (C1 := co_snoc fsum sq noexp nosf (fun x => x) (ref_part (V := f64)) (ref_argpart (V := f64)) PS1 _ _ _ _ _ _ (co_nil _ _ _ _ _ _ _ _ (m, SObj 2 None None None None)) S1).
  assert (C2 := co_snoc fsum sq noexp nosf (fun x => x) (ref_part (V := f64)) (ref_argpart (V := f64)) PS1 _ _ _ _ _ _ C1 S2).
  assert (C3 := co_snoc fsum sq noexp nosf (fun x => x) (ref_part (V := f64)) (ref_argpart (V := f64)) PS1 _ _ _ _ _ _ C2 S3).
  exact C3.
Qed.

Print Assumptions C155_as_without_sharing.
Print Assumptions C155_history_without_sharing.
