(** Runs of programs on a heap [h ++ l]: the arrays [h] of the caller and the
    arrays [l] allocated by the call. *)
From Coq Require Import ZArith List Arith Lia Bool.
From Verif Require Import Py Num Arr Heap S_Heap M_SNN M_MPEmpiric.
Import ListNotations.
Local Open Scope heap_scope.

Section Runs.
  Context {V : Type} (h : heap V).
  Implicit Types (l : heap V) (a i j : ref).

  Lemma run_caller l a D : nth_error h a = Some D -> p_get a (h ++ l) = (Ok D, h ++ l).
  Proof.
    intros E. unfold p_get. rewrite nth_error_app1, E; [reflexivity|].
    apply nth_error_Some. rewrite E. discriminate.
  Qed.

  Lemma run_local l i A : nth_error l i = Some A -> p_get (length h + i) (h ++ l) = (Ok A, h ++ l).
  Proof.
    intros E. unfold p_get. rewrite nth_error_app2 by lia.
    replace (length h + i - length h) with i by lia. rewrite E. reflexivity.
  Qed.

  Lemma run_new l A : p_new A (h ++ l) = (Ok (length h + length l), h ++ (l ++ [A])).
  Proof. unfold p_new. rewrite app_length, app_assoc. reflexivity. Qed.

  Lemma upd_app l i f : upd_nth (h ++ l) (length h + i) f = h ++ upd_nth l i f.
  Proof. induction h as [|A h' IH]; simpl; [reflexivity|]. rewrite IH. reflexivity. Qed.

  Lemma run_upd l i f : p_upd (length h + i) f (h ++ l) = (Ok tt, h ++ upd_nth l i f).
  Proof. unfold p_upd. rewrite upd_app. reflexivity. Qed.

  Lemma run_ok {A B} (p : prog V A) (f : A -> prog V B) s x s' :
    p s = (Ok x, s') -> (p_bind p f) s = f x s'.
  Proof. unfold p_bind. intros ->. reflexivity. Qed.

  Lemma run_raise {A B} (p : prog V A) (f : A -> prog V B) s e s' :
    p s = (Raise e, s') -> (p_bind p f) s = (Raise e, s').
  Proof. unfold p_bind. intros ->. reflexivity. Qed.

  Lemma run_copy l a D : nth_error h a = Some D ->
    p_copy a (h ++ l) = (Ok (length h + length l), h ++ (l ++ [D])).
  Proof.
    intros E. unfold p_copy. erewrite run_ok by (apply run_caller; eassumption). apply run_new.
  Qed.

  Lemma upd_other l i j f A : nth_error l i = Some A -> i <> j -> nth_error (upd_nth l j f) i = Some A.
  Proof.
    revert i j. induction l as [|B l IH]; intros i j E NE; [destruct i; discriminate|].
    destruct j; destruct i; simpl in *; try congruence. apply IH; [assumption | lia].
  Qed.

  Lemma upd_same l i f A : nth_error l i = Some A -> nth_error (upd_nth l i f) i = Some (f A).
  Proof.
    revert i. induction l as [|B l IH]; intros i E; [destruct i; discriminate|].
    destruct i; simpl in *; [congruence|]. apply IH, E.
  Qed.

  Lemma upd_comp l i f g : upd_nth (upd_nth l i f) i g = upd_nth l i (fun A => g (f A)).
  Proof.
    revert i. induction l as [|B l IH]; intros i; [reflexivity|].
    destruct i; simpl; [reflexivity|]. rewrite IH. reflexivity.
  Qed.

  Lemma upd_length l i f : length (upd_nth l i f) = length l.
  Proof.
    revert i. induction l as [|B l IH]; intros i; [reflexivity|].
    destruct i; simpl; [reflexivity|]. rewrite IH. reflexivity.
  Qed.

  Lemma upd_id l i f A : nth_error l i = Some A -> f A = A -> upd_nth l i f = l.
  Proof.
    revert i. induction l as [|B l IH]; intros i E F; [reflexivity|].
    destruct i; simpl in *; [congruence|]. rewrite IH; auto.
  Qed.

  (** a loop that updates one array and looks at nothing else *)
  Lemma run_for {T} (ts : list T) (body : T -> prog V unit) i (f : T -> arr2 V -> arr2 V) l :
    (forall t l', nth_error l' i <> None -> (forall j, j <> i -> nth_error l' j = nth_error l j) ->
       body t (h ++ l') = (Ok tt, h ++ upd_nth l' i (f t))) ->
    nth_error l i <> None ->
    p_for ts body (h ++ l) = (Ok tt, h ++ upd_nth l i (fun A => fold_left (fun A t => f t A) ts A)).
  Proof.
    intros Hb Hi.
    assert (G : forall ts l', nth_error l' i <> None -> (forall j, j <> i -> nth_error l' j = nth_error l j) ->
       p_for ts body (h ++ l') = (Ok tt, h ++ upd_nth l' i (fun A => fold_left (fun A t => f t A) ts A))).
    { clear ts Hi. induction ts as [|t ts IH]; intros l' Hi O; simpl.
      - unfold p_ret. destruct (nth_error l' i) as [A|] eqn:E; [|congruence].
        rewrite (upd_id l' i (fun A => A) A); auto.
      - erewrite run_ok by (apply Hb; assumption).
        rewrite IH; [rewrite upd_comp; reflexivity| |].
        + destruct (nth_error l' i) as [A|] eqn:E; [|congruence].
          rewrite (upd_same _ _ _ A E). discriminate.
        + intros j NE. rewrite <- (O j NE).
          destruct (nth_error l' j) as [A|] eqn:E.
          * apply upd_other; assumption.
          * apply nth_error_None. rewrite upd_length. apply nth_error_None, E. }
    apply G; auto.
  Qed.

  (** a list of results computed from the current state, which does not change *)
  Lemma run_map {T B} (ts : list T) (body : T -> prog V B) (g : T -> result B) l :
    (forall t, body t (h ++ l) = (g t, h ++ l)) ->
    p_map ts body (h ++ l) = (mapM g ts, h ++ l).
  Proof.
    intros Hb. induction ts as [|t ts IH]; simpl; [reflexivity|].
    unfold p_bind at 1. rewrite Hb. destruct (g t) as [b|e]; simpl; [|reflexivity].
    unfold p_bind. rewrite IH. destruct (mapM g ts); reflexivity.
  Qed.

  (** loops with an invariant of the local arrays; [done] are the elements that
      have been processed *)
  Lemma run_map_inv {T B} (Inv : list T -> heap V -> Prop) (body : T -> prog V B) (g : T -> result B) ts :
    (forall done t rest l, ts = done ++ t :: rest -> Inv done l ->
       exists l', Inv (done ++ [t]) l' /\ body t (h ++ l) = (g t, h ++ l')) ->
    forall l, Inv [] l -> exists l', p_map ts body (h ++ l) = (mapM g ts, h ++ l').
  Proof.
    intros Hb l0 I0.
    assert (G : forall rest done l, ts = done ++ rest -> Inv done l ->
              exists l', p_map rest body (h ++ l) = (mapM g rest, h ++ l')).
    { induction rest as [|t rest IH]; intros done l E I; simpl; [exists l; reflexivity|].
      destruct (Hb done t rest l E I) as (l' & I' & R).
      unfold p_bind at 1. rewrite R. destruct (g t) as [b|e]; simpl; [|exists l'; reflexivity].
      destruct (IH (done ++ [t]) l') as (l'' & R'); [rewrite E, <- app_assoc; reflexivity | exact I'|].
      exists l''. unfold p_bind. rewrite R'. destruct (mapM g rest); reflexivity. }
    exact (G ts [] l0 eq_refl I0).
  Qed.

  Lemma run_for_inv {T} (Inv : list T -> heap V -> Prop) (body : T -> prog V unit) ts :
    (forall done t rest l, ts = done ++ t :: rest -> Inv done l ->
       exists l', Inv (done ++ [t]) l' /\ body t (h ++ l) = (Ok tt, h ++ l')) ->
    forall l, Inv [] l -> exists l', Inv ts l' /\ p_for ts body (h ++ l) = (Ok tt, h ++ l').
  Proof.
    intros Hb l0 I0.
    assert (G : forall rest done l, ts = done ++ rest -> Inv done l ->
              exists l', Inv ts l' /\ p_for rest body (h ++ l) = (Ok tt, h ++ l')).
    { induction rest as [|t rest IH]; intros done l E I; simpl.
      - rewrite app_nil_r in E. subst done. exists l. split; [exact I | reflexivity].
      - destruct (Hb done t rest l E I) as (l' & I' & R).
        destruct (IH (done ++ [t]) l') as (l'' & I'' & R'); [rewrite E, <- app_assoc; reflexivity | exact I'|].
        exists l''. split; [exact I''|]. unfold p_bind. rewrite R. exact R'. }
    exact (G ts [] l0 eq_refl I0).
  Qed.

  Lemma run_set l i A x y v : nth_error l i = Some A ->
    p_set (length h + i) x y v (h ++ l) =
      if (x <? nrow A) && (y <? ncol A) then (Ok tt, h ++ upd_nth l i (fun A => set2 A x y v))
      else (Raise IndexError, h ++ l).
  Proof.
    intros E. unfold p_set. erewrite run_ok by (apply run_local, E).
    destruct ((x <? nrow A) && (y <? ncol A)) eqn:C; unfold p_bind, p_lift; simpl; [|reflexivity].
    apply run_upd.
  Qed.

  (** [for j, sample in enumerate(idx): A[sample, j] = v] *)
  Lemma run_cells l i A idx v : nth_error l i = Some A -> length idx <= ncol A ->
    if existsb (fun s => nrow A <=? s) idx
    then exists l', p_cells (length h + i) idx v (h ++ l) = (Raise IndexError, h ++ l')
    else p_cells (length h + i) idx v (h ++ l) = (Ok tt, h ++ upd_nth l i (set_cells idx v)).
  Proof.
    intros E L. unfold p_cells, set_cells, for_.
    assert (G : forall ts l' A', nth_error l' i = Some A' -> nrow A' = nrow A -> ncol A' = ncol A ->
       (forall j, In j ts -> j < length idx) ->
       if existsb (fun j => nrow A <=? nth j idx 0) ts
       then exists l'', p_for ts (fun j => p_set (length h + i) (nth j idx 0) j v) (h ++ l') = (Raise IndexError, h ++ l'')
       else p_for ts (fun j => p_set (length h + i) (nth j idx 0) j v) (h ++ l') =
              (Ok tt, h ++ upd_nth l' i (fun M => fold_left (fun M j => set2 M (nth j idx 0) j v) ts M))).
    { induction ts as [|t ts IH]; intros l' A' E' Rn Cn B; simpl.
      - unfold p_ret. rewrite (upd_id l' i (fun A => A) A'); auto.
      - pose proof (run_set l' i A' (nth t idx 0) t v E') as R. rewrite Rn, Cn in R.
        pose proof (B t (or_introl eq_refl)) as Bt.
        assert (Ct : (t <? ncol A) = true) by (apply Nat.ltb_lt; lia).
        rewrite Ct, andb_true_r in R.
        destruct (nrow A <=? nth t idx 0) eqn:C; simpl.
        + assert (C' : (nth t idx 0 <? nrow A) = false) by (apply Nat.ltb_ge, Nat.leb_le, C).
          rewrite C' in R. exists l'. apply run_raise, R.
        + assert (C' : (nth t idx 0 <? nrow A) = true) by (apply Nat.ltb_lt, Nat.leb_gt, C).
          rewrite C' in R.
          specialize (IH (upd_nth l' i (fun A => set2 A (nth t idx 0) t v)) _ (upd_same _ _ _ _ E') Rn Cn
                         (fun j Hj => B j (or_intror Hj))).
          destruct (existsb _ ts).
          * destruct IH as (l'' & IH). exists l''. erewrite run_ok by exact R. exact IH.
          * erewrite run_ok by exact R. rewrite IH, upd_comp. reflexivity. }
    specialize (G (seq 0 (length idx)) l A E eq_refl eq_refl
                  (fun j Hj => proj2 (proj1 (in_seq _ _ _) Hj))).
    replace (existsb (fun s => nrow A <=? s) idx)
      with (existsb (fun j => nrow A <=? nth j idx 0) (seq 0 (length idx))); [exact G|].
    clear.
    assert (Q : forall k, existsb (fun j => nrow A <=? nth (j - k) idx 0) (seq k (length idx)) = existsb (fun s => nrow A <=? s) idx).
    { induction idx as [|x idx IH]; intros k; simpl; [reflexivity|].
      rewrite Nat.sub_diag. f_equal. rewrite <- (IH (S k)). clear IH.
      assert (K : forall ts, (forall j, In j ts -> S k <= j) ->
        existsb (fun j => nrow A <=? match j - k with 0 => x | S m => nth m idx 0 end) ts =
        existsb (fun j => nrow A <=? nth (j - S k) idx 0) ts).
      { induction ts as [|t ts IH]; intros B; simpl; [reflexivity|].
        rewrite IH by (intros j Hj; apply B; right; exact Hj).
        pose proof (B t (or_introl eq_refl)). 
        replace (t - k) with (S (t - S k)) by lia. reflexivity. }
      apply K. intros j Hj. apply in_seq in Hj. lia. }
    rewrite <- (Q 0). clear.
    assert (K : forall ts, existsb (fun j => nrow A <=? nth j idx 0) ts = existsb (fun j => nrow A <=? nth (j - 0) idx 0) ts).
    { induction ts as [|t ts IH]; simpl; [reflexivity|]. rewrite Nat.sub_0_r, IH. reflexivity. }
    apply K.
  Qed.

  Lemma untouched_app l : untouched h (h ++ l).
  Proof. intros a L. apply nth_error_app1, L. Qed.

  Lemma pure_ok (call : prog V ref) l i M' M : call h = (Ok (length h + i), h ++ l) ->
    nth_error l i = Some M' -> eq2 M' M -> pure_call call h (Ok M).
  Proof.
    intros E N Q. unfold pure_call. rewrite E. simpl. split; [apply untouched_app|].
    exists (length h + i), M'. split; [reflexivity|]. split; [lia|]. split; [|exact Q].
    rewrite nth_error_app2 by lia. replace (length h + i - length h) with i by lia. exact N.
  Qed.

  Lemma pure_raise (call : prog V ref) l e : call h = (Raise e, h ++ l) -> pure_call call h (Raise e).
  Proof. intros E. unfold pure_call. rewrite E. simpl. split; [apply untouched_app | reflexivity]. Qed.

  Lemma pure_val {A} (call : prog V A) l r : call h = (r, h ++ l) -> pure_value call h r.
  Proof. intros E. unfold pure_value. rewrite E. simpl. split; [reflexivity | apply untouched_app]. Qed.
End Runs.

Section Good.
  Context {V : Type} (h : heap V).

  (** the outcome of a run compared to the outcome of a function *)
  Definition good {A B} (rel : heap V -> A -> B -> Prop) (o : result A * heap V) (r : result B) : Prop :=
    exists l, snd o = h ++ l /\
      match fst o, r with
      | Ok a, Ok b => rel l a b
      | Raise e, Raise e' => e = e'
      | _, _ => False
      end.
  Definition at_ref : heap V -> ref -> arr2 V -> Prop :=
    fun l b M => exists i M', b = length h + i /\ nth_error l i = Some M' /\ eq2 M' M.

  Lemma good_pure (call : prog V ref) r : good at_ref (call (h ++ [])) r -> pure_call call h r.
  Proof.
    rewrite app_nil_r. intros (l & E & G). destruct (call h) as [o h'] eqn:C. simpl in *. subst h'.
    destruct o as [b|e], r as [M|e']; try contradiction.
    - destruct G as (i & M' & -> & N & Q). exact (pure_ok h _ l i M' M C N Q).
    - subst e'. exact (pure_raise h _ l e C).
  Qed.

  Lemma good_value {A} (call : prog V A) r : good (fun _ a b => a = b) (call (h ++ [])) r -> pure_value call h r.
  Proof.
    rewrite app_nil_r. intros (l & E & G). destruct (call h) as [o h'] eqn:C. simpl in *. subst h'.
    apply (pure_val h _ l). rewrite C. destruct o, r; try contradiction; subst; reflexivity.
  Qed.

  Lemma good_same {A B C} rel (p : prog V C) (f : C -> prog V A) l (X : result C) (k : C -> result B) :
    p (h ++ l) = (X, h ++ l) ->
    (forall x, X = Ok x -> good rel (f x (h ++ l)) (k x)) ->
    good rel (p_bind p f (h ++ l)) (bind X k).
  Proof.
    intros E G. unfold p_bind. rewrite E. destruct X as [x|e]; simpl; [apply G; reflexivity|].
    exists l. simpl. auto.
  Qed.

  Lemma good_lift {A B C} rel (f : C -> prog V A) l (X : result C) (k : C -> result B) :
    (forall x, X = Ok x -> good rel (f x (h ++ l)) (k x)) ->
    good rel (p_bind (p_lift X) f (h ++ l)) (bind X k).
  Proof. apply good_same. reflexivity. Qed.

  (** a check that comes later in the model than in the program, or earlier *)
  Lemma good_guard {A B} rel (f : unit -> prog V A) l c e (k : result B) :
    (c = true -> k = Raise e) -> (c = false -> good rel (f tt (h ++ l)) k) ->
    good rel (p_bind (p_lift (guard c e)) f (h ++ l)) k.
  Proof.
    intros T F. unfold p_bind, p_lift, guard. destruct c; [|apply F; reflexivity].
    rewrite T by reflexivity. exists l. simpl. auto.
  Qed.

  Lemma good_get_caller {A B} rel (f : arr2 V -> prog V A) l a D (r : result B) :
    nth_error h a = Some D -> good rel (f D (h ++ l)) r -> good rel (p_bind (p_get a) f (h ++ l)) r.
  Proof. intros E G. erewrite run_ok by (apply run_caller; eassumption). exact G. Qed.

  Lemma good_get {A B} rel (f : arr2 V -> prog V A) l i M (r : result B) :
    nth_error l i = Some M -> good rel (f M (h ++ l)) r -> good rel (p_bind (p_get (length h + i)) f (h ++ l)) r.
  Proof. intros E G. erewrite run_ok by (apply run_local; eassumption). exact G. Qed.

  Lemma good_copy {A B} rel (f : ref -> prog V A) l a D (r : result B) :
    nth_error h a = Some D -> good rel (f (length h + length l) (h ++ (l ++ [D]))) r ->
    good rel (p_bind (p_copy a) f (h ++ l)) r.
  Proof. intros E G. erewrite run_ok by (apply run_copy; eassumption). exact G. Qed.

  Lemma good_new {A B} rel (f : ref -> prog V A) l M (r : result B) :
    good rel (f (length h + length l) (h ++ (l ++ [M]))) r -> good rel (p_bind (p_new M) f (h ++ l)) r.
  Proof. intros G. erewrite run_ok by apply run_new. exact G. Qed.

  Lemma good_upd {A B} rel (f : unit -> prog V A) l i g (r : result B) :
    good rel (f tt (h ++ upd_nth l i g)) r -> good rel (p_bind (p_upd (length h + i) g) f (h ++ l)) r.
  Proof. intros G. erewrite run_ok by apply run_upd. exact G. Qed.

  Lemma good_for {A B T} rel (f : unit -> prog V A) l (ts : list T) body i (g : T -> arr2 V -> arr2 V) (r : result B) :
    (forall t l', nth_error l' i <> None -> (forall j, j <> i -> nth_error l' j = nth_error l j) ->
       body t (h ++ l') = (Ok tt, h ++ upd_nth l' i (g t))) ->
    nth_error l i <> None ->
    good rel (f tt (h ++ upd_nth l i (fun M => fold_left (fun M t => g t M) ts M))) r ->
    good rel (p_bind (p_for ts body) f (h ++ l)) r.
  Proof. intros E N G. erewrite run_ok by (apply run_for; eassumption). exact G. Qed.

  Lemma good_cells {A B} rel (f : unit -> prog V A) l i M idx v (r : result B) :
    nth_error l i = Some M -> length idx = ncol M ->
    (existsb (fun s => nrow M <=? s) idx = true -> r = Raise IndexError) ->
    (existsb (fun s => nrow M <=? s) idx = false -> good rel (f tt (h ++ upd_nth l i (set_cells idx v))) r) ->
    good rel (p_bind (p_cells (length h + i) idx v) f (h ++ l)) r.
  Proof.
    intros E L T F. pose proof (run_cells h l i M idx v E ltac:(lia)) as R.
    destruct (existsb (fun s => nrow M <=? s) idx).
    - destruct R as (l' & R). rewrite T by reflexivity.
      erewrite run_raise by exact R. exists l'. simpl. auto.
    - erewrite run_ok by exact R. apply F. reflexivity.
  Qed.

  Lemma eq2_refl (M : arr2 V) : eq2 M M.
  Proof. repeat split. Qed.

  Lemma good_ret_eq l i M' M : nth_error l i = Some M' -> eq2 M' M ->
    good at_ref (p_ret (length h + i) (h ++ l)) (Ok M).
  Proof. intros E Q. exists l. simpl. split; [reflexivity|]. exists i, M'. auto. Qed.

  Lemma good_ret_ref l i M : nth_error l i = Some M -> good at_ref (p_ret (length h + i) (h ++ l)) (Ok M).
  Proof. intros E. apply (good_ret_eq l i M); [exact E | apply eq2_refl]. Qed.

  Lemma good_new_last l M r : r = Ok M -> good at_ref (p_new M (h ++ l)) r.
  Proof.
    intros ->. rewrite run_new. exists (l ++ [M]). simpl. split; [reflexivity|].
    exists (length l), M. split; [reflexivity|]. split; [|apply eq2_refl].
    rewrite nth_error_app2, Nat.sub_diag by lia. reflexivity.
  Qed.
End Good.
