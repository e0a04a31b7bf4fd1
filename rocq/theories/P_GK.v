(** Proofs about the Goodman-Kruskal models: counting. *)
From Coq Require Import String.
From Coq Require Import ZArith List Arith Lia Bool Permutation Sorting.
From Verif Require Import Py Num Arr Sort S_Neighbors S_GK M_IO M_GK.
Import ListNotations.
Local Open Scope nat_scope.

Definition cnt {A} (p : A -> bool) (l : list A) : nat := length (filter p l).

Section Cnt.
  Context {A : Type}.
  Implicit Types (p q r : A -> bool) (l : list A).

  Lemma cnt_cons p x l : cnt p (x :: l) = (if p x then 1 else 0) + cnt p l.
  Proof. unfold cnt. simpl. destruct (p x); reflexivity. Qed.
  Lemma cnt_app p l l' : cnt p (l ++ l') = cnt p l + cnt p l'.
  Proof. unfold cnt. now rewrite filter_app, app_length. Qed.
  Lemma cnt_perm p l l' : Permutation l l' -> cnt p l = cnt p l'.
  Proof.
    induction 1; rewrite ?cnt_cons; lia.
  Qed.
  Lemma cnt_ext p q l : (forall x, In x l -> p x = q x) -> cnt p l = cnt q l.
  Proof.
    induction l as [|x l IH]; intros H; [reflexivity|].
    rewrite !cnt_cons, (H x) by (simpl; auto). f_equal. apply IH. simpl in H; auto.
  Qed.
  Lemma cnt_neg p l : cnt (fun x => negb (p x)) l + cnt p l = length l.
  Proof. induction l; [reflexivity|]. rewrite !cnt_cons. simpl. destruct (p a); simpl; lia. Qed.
  Lemma cnt_split3 p q r l :
    (forall x, In x l -> (if p x then 1 else 0) + (if q x then 1 else 0) + (if r x then 1 else 0) = 1) ->
    cnt p l + cnt q l + cnt r l = length l.
  Proof.
    induction l as [|x l IH]; intros H; [reflexivity|].
    rewrite !cnt_cons. simpl length. specialize (IH (fun y Hy => H y (or_intror Hy))).
    specialize (H x (or_introl eq_refl)). lia.
  Qed.
  Lemma cnt_filter p q l : cnt p (filter q l) = cnt (fun x => q x && p x) l.
  Proof.
    induction l; [reflexivity|]. simpl filter. rewrite cnt_cons. destruct (q a); simpl.
    - now rewrite cnt_cons, IHl.
    - exact IHl.
  Qed.
  Lemma cnt_le p l : cnt p l <= length l.
  Proof. pose proof (cnt_neg p l). lia. Qed.
  Lemma cnt_zero p l : (forall x, In x l -> p x = false) -> cnt p l = 0.
  Proof.
    induction l as [|x l IH]; intros H; [reflexivity|].
    rewrite cnt_cons, H by (simpl; auto). apply IH. simpl in H; auto.
  Qed.
  Lemma cnt_pos p l : 0 < cnt p l -> exists x, In x l /\ p x = true.
  Proof.
    induction l as [|x l IH]; [unfold cnt; simpl; lia|].
    rewrite cnt_cons. destruct (p x) eqn:E; intros H.
    - exists x. simpl; auto.
    - destruct IH as (y & Hy & Ey); [lia|]. exists y. simpl; auto.
  Qed.
  Lemma cnt_pos_In p l x : In x l -> p x = true -> 0 < cnt p l.
  Proof.
    induction l as [|y l IH]; intros H Hp; [contradiction|]. rewrite cnt_cons.
    destruct H as [->|H]; [rewrite Hp; lia|]. specialize (IH H Hp). lia.
  Qed.
  Lemma cnt_sum p l : cnt p l = sum_nat (map (fun x => if p x then 1 else 0) l).
  Proof. induction l; [reflexivity|]. rewrite cnt_cons. simpl. lia. Qed.
End Cnt.
Lemma cnt_map {A B} (f : B -> A) (p : A -> bool) (l : list B) : cnt p (map f l) = cnt (fun x => p (f x)) l.
Proof. induction l; [reflexivity|]. simpl map. rewrite !cnt_cons, IHl. reflexivity. Qed.

Lemma sum_nat_ext {A} (f g : A -> nat) l : (forall x, In x l -> f x = g x) ->
  sum_nat (map f l) = sum_nat (map g l).
Proof.
  induction l as [|x l IH]; intros H; [reflexivity|]. simpl.
  rewrite (H x), IH; simpl; auto. intros y Hy. apply H. simpl; auto.
Qed.
Lemma sum_nat_mul {A} (f : A -> nat) c l : sum_nat (map (fun x => f x * c) l) = sum_nat (map f l) * c.
Proof. induction l; simpl; lia. Qed.
Lemma sum_nat_mul_l {A} (f : A -> nat) c l : sum_nat (map (fun x => c * f x) l) = c * sum_nat (map f l).
Proof. induction l; simpl; lia. Qed.
Lemma sum_nat_swap {A B} (f : A -> B -> nat) la lb :
  sum_nat (map (fun a => sum_nat (map (f a) lb)) la) =
  sum_nat (map (fun b => sum_nat (map (fun a => f a b) la)) lb).
Proof.
  induction la as [|a la IH]; simpl.
  - induction lb; simpl; auto.
  - rewrite IH, <- sum_nat_map_add. reflexivity.
Qed.
Lemma sum_nat_filter {A} (f : A -> nat) (p : A -> bool) l :
  sum_nat (map f (filter p l)) = sum_nat (map (fun x => if p x then f x else 0) l).
Proof. induction l; simpl; [reflexivity|]. destruct (p a); simpl; lia. Qed.
Lemma sum_nat_flat_map {A B} (f : B -> nat) (g : A -> list B) l :
  sum_nat (map f (flat_map g l)) = sum_nat (map (fun a => sum_nat (map f (g a))) l).
Proof. induction l; simpl; [reflexivity|]. rewrite map_app, sum_nat_app. lia. Qed.
Lemma sum_nat_Permutation {A} (f : A -> nat) l l' : Permutation l l' ->
  sum_nat (map f l) = sum_nat (map f l').
Proof. intros H. apply sum_nat_perm. now apply Permutation_map. Qed.

(** ** values *)
Section Vals.
  Context {V : Type} {N : Num V} {toX : V -> xr} (CL : CmpLaws V N toX).

  Definition ok (x : V) : Prop := nisnan x = false.

  Lemma neq_sym x y : neq x y = neq y x.
  Proof. rewrite !(cl_eq _ _ _ CL). generalize (toX x), (toX y); intros; xr_tac. Qed.
  Lemma neq_trans x y z : neq x y = true -> neq y z = true -> neq x z = true.
  Proof.
    rewrite !(cl_eq _ _ _ CL). generalize (toX x), (toX y), (toX z); intros; xr_tac.
  Qed.
  Lemma neq_refl x : ok x -> neq x x = true.
  Proof. unfold ok. rewrite (cl_eq _ _ _ CL), (cl_nan _ _ _ CL). generalize (toX x); intros; xr_tac. Qed.
  Lemma neq_ok x y : neq x y = true -> ok x /\ ok y.
  Proof.
    unfold ok. rewrite (cl_eq _ _ _ CL), !(cl_nan _ _ _ CL).
    generalize (toX x), (toX y); intros; xr_tac; auto.
  Qed.
  Lemma nlt_neq_l x y z : neq x y = true -> nlt x z = nlt y z.
  Proof.
    rewrite (cl_eq _ _ _ CL), !(cl_lt _ _ _ CL).
    generalize (toX x), (toX y), (toX z); intros; xr_tac.
  Qed.
  Lemma nlt_neq_r x y z : neq x y = true -> nlt z x = nlt z y.
  Proof.
    rewrite (cl_eq _ _ _ CL), !(cl_lt _ _ _ CL).
    generalize (toX x), (toX y), (toX z); intros; xr_tac.
  Qed.
  Lemma neq_neq_l x y z : neq x y = true -> neq x z = neq y z.
  Proof.
    rewrite !(cl_eq _ _ _ CL).
    generalize (toX x), (toX y), (toX z); intros; xr_tac.
  Qed.
  Lemma tri x y : ok x -> ok y ->
    (if nlt x y then 1 else 0) + (if nlt y x then 1 else 0) + (if neq x y then 1 else 0) = 1.
  Proof.
    unfold ok. rewrite !(cl_eq _ _ _ CL), !(cl_lt _ _ _ CL), !(cl_nan _ _ _ CL).
    generalize (toX x), (toX y); intros; xr_tac.
  Qed.
  Lemma sle_ok x y : ok x -> ok y -> sle x y = negb (nlt y x).
  Proof. apply (sle_false_lt CL). Qed.
  Lemma sle_anti_neq x y : ok x -> ok y -> sle x y = true -> sle y x = true -> neq x y = true.
  Proof.
    intros Hx Hy. rewrite !sle_ok by assumption. pose proof (tri x y Hx Hy).
    destruct (nlt x y), (nlt y x), (neq x y); simpl in *; try lia; congruence.
  Qed.
  Lemma sle_not_neq_lt x y : ok x -> ok y -> sle x y = true -> neq x y = false -> nlt x y = true.
  Proof.
    intros Hx Hy. rewrite !sle_ok by assumption. pose proof (tri x y Hx Hy).
    destruct (nlt x y), (nlt y x), (neq x y); simpl in *; try lia; congruence.
  Qed.

  (** *** sorted lists *)
  Definition Sle (x y : V) : Prop := sle x y = true.

  Lemma sorted_nth (l : list V) :
    (forall a b, a < b -> b < length l -> sle (vat l a) (vat l b) = true) ->
    StronglySorted Sle l.
  Proof.
    induction l as [|x l IH]; intros H; constructor.
    - apply IH. intros a b Hab Hb. apply (H (S a) (S b)); simpl; lia.
    - apply Forall_forall. intros y Hy. destruct (In_nth _ _ nnan Hy) as (b & Hb & <-).
      apply (H 0 (S b)); simpl; lia.
  Qed.

  Lemma sort_sorted sort l : sort_ok sort -> StronglySorted Sle (sort l) /\ Permutation (sort l) l.
  Proof.
    intros H. destruct (H l) as (Hp & Hs). split; [|assumption].
    apply sorted_nth. intros a b Hab Hb. apply Hs; [assumption|].
    now rewrite <- (Permutation_length Hp).
  Qed.

  Lemma repeated_cons x y l :
    repeated (x :: y :: l) = (if neq y x then [y] else []) ++ repeated (y :: l).
  Proof. unfold repeated. simpl. destruct (neq y x); reflexivity. Qed.

  Lemma repeated_In l y : In y (repeated l) -> In y l.
  Proof.
    induction l as [|x [|z l] IH]; intros H; try contradiction.
    rewrite repeated_cons in H. apply in_app_iff in H. destruct H as [H|H].
    - destruct (neq z x); simpl in H; [|contradiction]. destruct H as [<-|[]]. simpl; auto.
    - right. auto.
  Qed.

  (** a value occurring twice in a sorted list is found *)
  Lemma repeated_cover l s : StronglySorted Sle l -> Forall ok l -> 2 <= cnt (neq s) l ->
    exists d, In d (repeated l) /\ neq s d = true.
  Proof.
    induction l as [|x [|y l] IH]; intros Hs Ho Hc.
    - unfold cnt in Hc; simpl in Hc. lia.
    - rewrite cnt_cons in Hc. unfold cnt in Hc. simpl in Hc. destruct (neq s x); lia.
    - rewrite repeated_cons. inversion Hs as [|? ? Hs' Hf]; subst.
      inversion Ho as [|? ? Hox Ho']; subst.
      rewrite cnt_cons in Hc. destruct (neq s x) eqn:E.
      + destruct (cnt_pos (neq s) (y :: l)) as (z & Hz & Ez); [lia|].
        assert (Hoy : ok y) by (inversion Ho'; auto).
        assert (Hoz : ok z) by (rewrite Forall_forall in Ho'; auto).
        assert (Exy : sle x y = true) by (rewrite Forall_forall in Hf; apply Hf; simpl; auto).
        assert (Eyz : sle y z = true).
        { destruct Hz as [<-|Hz]; [apply (sle_refl CL)|].
          inversion Hs' as [|? ? _ Hfy]; subst. rewrite Forall_forall in Hfy. now apply Hfy. }
        assert (Exz : neq x z = true).
        { eapply neq_trans; [|exact Ez]. now rewrite neq_sym. }
        assert (Eyx : neq y x = true).
        { apply sle_anti_neq; auto. apply (sle_trans CL) with z; [assumption|].
          rewrite sle_ok by assumption. rewrite <- (nlt_neq_r _ _ x Exz).
          now rewrite (nlt_irrefl CL). }
        exists y. rewrite Eyx. split; [simpl; auto|].
        eapply neq_trans; [exact E|]. now rewrite neq_sym.
      + destruct IH as (d & Hd & Ed); auto.
        exists d. split; [|assumption]. apply in_app_iff. auto.
  Qed.

  (** np.unique keeps one representative of each value *)
  Definition uniq_sorted (l : list V) : list V :=
    match l with
    | [] => []
    | x :: s => x :: map snd (filter (fun pq => negb (neq (snd pq) (fst pq))) (combine (x :: s) s))
    end.
  Lemma uniq_cons x y l :
    uniq_sorted (x :: y :: l) = x :: (if neq y x then tl (uniq_sorted (y :: l)) else uniq_sorted (y :: l)).
  Proof. unfold uniq_sorted. simpl. destruct (neq y x); reflexivity. Qed.

  Lemma uniq_cover l s : Forall ok l -> In s l -> exists d, In d (uniq_sorted l) /\ neq s d = true.
  Proof.
    induction l as [|x [|y l] IH]; intros Ho Hs; [contradiction| |].
    - destruct Hs as [<-|[]]. exists x. split; [simpl; auto|]. apply neq_refl. now inversion Ho.
    - inversion Ho as [|? ? Hx Ho']; subst. rewrite uniq_cons.
      destruct Hs as [<-|Hs].
      + exists x. split; [simpl; auto|]. now apply neq_refl.
      + destruct (IH Ho' Hs) as (d & Hd & Ed).
        destruct (neq y x) eqn:E.
        * destruct Hd as [<-|Hd].
          { exists x. split; [simpl; auto|]. eapply neq_trans; eauto. }
          { exists d. split; [|assumption]. right. exact Hd. }
        * exists d. split; [right; assumption|assumption].
  Qed.

  Lemma uniq_In l d : In d (uniq_sorted l) -> In d l.
  Proof.
    induction l as [|x [|y l] IH]; intros H; try contradiction; [exact H|].
    rewrite uniq_cons in H. destruct H as [<-|H]; [simpl; auto|]. right. apply IH.
    destruct (neq y x); [|assumption]. simpl in *. auto.
  Qed.

  Lemma uniq_distinct l : StronglySorted Sle l -> Forall ok l ->
    StronglySorted (fun x y => nlt x y = true) (uniq_sorted l).
  Proof.
    induction l as [|x [|y l] IH]; intros Hs Ho; [constructor|repeat constructor|].
    inversion Hs as [|? ? Hs' Hf]; subst. inversion Ho as [|? ? Hx Ho']; subst.
    specialize (IH Hs' Ho'). rewrite uniq_cons.
    assert (Hy : ok y) by now inversion Ho'.
    assert (Exy : sle x y = true) by (rewrite Forall_forall in Hf; apply Hf; simpl; auto).
    remember (y :: l) as yl. assert (Hhd : exists t, uniq_sorted yl = y :: t) by (subst; eexists; reflexivity).
    destruct Hhd as (t & Et). rewrite Et in *. inversion IH as [|? ? Ht Hft]; subst.
    destruct (neq y x) eqn:E.
    - simpl tl. constructor; [assumption|]. rewrite Forall_forall in *. intros z Hz.
      rewrite <- (nlt_neq_l y x z E). auto.
    - constructor; [assumption|]. constructor.
      + apply sle_not_neq_lt; auto. now rewrite neq_sym.
      + rewrite Forall_forall in *. intros z Hz. eapply (nlt_trans CL); [|now apply Hft].
        apply sle_not_neq_lt; auto. now rewrite neq_sym.
  Qed.

  Lemma np_unique_uniq sort l : np_unique sort l = uniq_sorted (sort l).
  Proof. unfold np_unique. now destruct (sort l). Qed.

  (** in a list of pairwise different values exactly one matches *)
  Lemma distinct_match U s o : StronglySorted (fun x y => nlt x y = true) U ->
    (exists d, In d U /\ neq s d = true) -> neq s o = true ->
    cnt (fun d => neq s d && neq o d) U = 1.
  Proof.
    intros HU (d & Hd & Ed) Eso.
    assert (Hoth : forall d, neq s d && neq o d = neq s d).
    { intros d'. rewrite (neq_neq_l s o d' Eso). now destruct (neq o d'). }
    rewrite (cnt_ext _ (neq s)) by (intros; apply Hoth).
    clear Hoth Eso. induction U as [|u U IH]; [contradiction|].
    inversion HU as [|? ? HU' Hf]; subst. rewrite cnt_cons.
    rewrite Forall_forall in Hf. destruct Hd as [->|Hd].
    - rewrite Ed. rewrite cnt_zero; [reflexivity|]. intros x Hx. specialize (Hf x Hx).
      destruct (neq s x) eqn:E; [|reflexivity].
      rewrite <- (nlt_neq_r s x d E), <- (nlt_neq_l s d s Ed), (nlt_irrefl CL) in Hf. discriminate.
    - specialize (Hf d Hd). rewrite IH by assumption.
      destruct (neq s u) eqn:E; [|reflexivity].
      rewrite <- (nlt_neq_l s u d E), <- (nlt_neq_r s d s Ed), (nlt_irrefl CL) in Hf. discriminate.
  Qed.

  Lemma cnt_two (l1 l2 : list V) s o : In s l1 -> In o l2 -> neq s o = true ->
    2 <= cnt (neq s) (l1 ++ l2).
  Proof.
    intros H1 H2 E. rewrite cnt_app.
    assert (0 < cnt (neq s) l1) by (eapply cnt_pos_In; eauto; apply neq_refl; now apply (neq_ok s o)).
    assert (0 < cnt (neq s) l2) by (eapply cnt_pos_In; eauto). lia.
  Qed.

  (** *** number of equal pairs *)
  Lemma equi_fold (full : list V) m (U : list V) z :
    fold_left (fun acc d =>
      let arg := filter (fun i => neq (vat full i) d) (seq 0 (length full)) in
      let se := length (filter (fun i => i <? m) arg) in
      (acc + Z.of_nat se * (Z.of_nat (length arg) - Z.of_nat se))%Z) U z =
    (z + Z.of_nat (sum_nat (map (fun d => (cnt (fun i => (neq (vat full i) d) && (i <? m)) (seq 0 (length full)) *
         cnt (fun i => (neq (vat full i) d) && negb (i <? m)) (seq 0 (length full)))%nat) U)))%Z.
  Proof.
    revert z. induction U as [|d U IH]; intros z; simpl; [lia|].
    rewrite IH. fold (cnt (fun i => i <? m) (filter (fun i => neq (vat full i) d) (seq 0 (length full)))).
    rewrite cnt_filter.
    assert (E : length (filter (fun i => neq (vat full i) d) (seq 0 (length full))) =
      cnt (fun i => (neq (vat full i) d) && (i <? m)) (seq 0 (length full)) +
      cnt (fun i => (neq (vat full i) d) && negb (i <? m)) (seq 0 (length full))).
    { rewrite <- !cnt_filter. rewrite <- (cnt_neg (fun i => i <? m)). lia. }
    rewrite E. lia.
  Qed.

  Lemma vat_app_l (l1 l2 : list V) i : i < length l1 -> vat (l1 ++ l2) i = vat l1 i.
  Proof. intros. unfold vat. now rewrite app_nth1. Qed.
  Lemma vat_app_r (l1 l2 : list V) i : vat (l1 ++ l2) (length l1 + i) = vat l2 i.
  Proof. unfold vat. rewrite app_nth2 by lia. f_equal. lia. Qed.

  Lemma cnt_vat (p : V -> bool) l : cnt (fun i => p (vat l i)) (seq 0 (length l)) = cnt p l.
  Proof. rewrite <- (cnt_map (vat l) p). now rewrite map_vat_seq. Qed.

  Lemma seq_split a b : seq 0 (a + b) = seq 0 a ++ map (fun i => a + i) (seq 0 b).
  Proof.
    rewrite seq_app. f_equal. simpl. clear.
    revert a. induction b as [|b IH]; intros a; [reflexivity|].
    rewrite !seq_S, map_app, <- IH. simpl. reflexivity.
  Qed.

  Lemma cnt_self (p : V -> bool) l1 l2 :
    cnt (fun i => p (vat (l1 ++ l2) i) && (i <? length l1)) (seq 0 (length (l1 ++ l2))) = cnt p l1.
  Proof.
    rewrite app_length, seq_split, cnt_app, cnt_map.
    rewrite (cnt_zero _ (seq 0 (length l2))).
    2:{ intros x _. destruct (length l1 + x <? length l1) eqn:E; [apply Nat.ltb_lt in E; lia|apply andb_false_r]. }
    rewrite Nat.add_0_r, <- (cnt_vat p l1). apply cnt_ext. intros i Hi. apply in_seq in Hi.
    rewrite vat_app_l by lia. destruct (i <? length l1) eqn:E; [apply andb_true_r|].
    apply Nat.ltb_ge in E. lia.
  Qed.
  Lemma cnt_other (p : V -> bool) l1 l2 :
    cnt (fun i => p (vat (l1 ++ l2) i) && negb (i <? length l1)) (seq 0 (length (l1 ++ l2))) = cnt p l2.
  Proof.
    rewrite app_length, seq_split, cnt_app, cnt_map.
    rewrite (cnt_zero _ (seq 0 (length l1))).
    2:{ intros x Hx. apply in_seq in Hx. destruct (x <? length l1) eqn:E; [apply andb_false_r|].
        apply Nat.ltb_ge in E. lia. }
    rewrite Nat.add_0_l, <- (cnt_vat p l2). apply cnt_ext. intros i Hi. apply in_seq in Hi.
    rewrite vat_app_r. destruct (length l1 + i <? length l1) eqn:E; [apply Nat.ltb_lt in E; lia|].
    apply andb_true_r.
  Qed.

  Definition npairs (p : V -> V -> bool) (l1 l2 : list V) : nat :=
    sum_nat (map (fun s => cnt (p s) l2) l1).

  Lemma equi_correct sort l1 l2 : sort_ok sort -> Forall ok l1 -> Forall ok l2 ->
    gk_equi sort (l1 ++ l2) (length l1) = Z.of_nat (npairs neq l1 l2).
  Proof.
    intros HS H1 H2. unfold gk_equi. rewrite equi_fold, Z.add_0_l. f_equal.
    rewrite np_unique_uniq.
    set (U := uniq_sorted (sort (repeated (sort (l1 ++ l2))))).
    destruct (sort_sorted sort (l1 ++ l2) HS) as (Ss & Sp).
    destruct (sort_sorted sort (repeated (sort (l1 ++ l2))) HS) as (Us & Up).
    assert (Hok : Forall ok (sort (l1 ++ l2))).
    { eapply Permutation_Forall; [symmetry; exact Sp|]. apply Forall_app; auto. }
    assert (HokU : Forall ok (sort (repeated (sort (l1 ++ l2))))).
    { eapply Permutation_Forall; [symmetry; exact Up|]. apply Forall_forall. intros x Hx.
      apply repeated_In in Hx. rewrite Forall_forall in Hok. auto. }
    assert (HU : StronglySorted (fun x y => nlt x y = true) U) by now apply uniq_distinct.
    assert (HC : forall s o, In s l1 -> In o l2 -> neq s o = true ->
              exists d, In d U /\ neq s d = true).
    { intros s o Hs Ho E.
      destruct (repeated_cover (sort (l1 ++ l2)) s Ss Hok) as (d & Hd & Ed).
      { rewrite (cnt_perm _ _ _ Sp). eapply cnt_two; eauto. }
      destruct (uniq_cover (sort (repeated (sort (l1 ++ l2)))) d HokU) as (d' & Hd' & Ed').
      { eapply Permutation_in; [symmetry; exact Up|assumption]. }
      exists d'. split; [exact Hd'|]. eapply neq_trans; eauto. }
    clearbody U. clear - CL HU HC.
    rewrite (sum_nat_ext _ (fun d => cnt (fun s => neq s d) l1 * cnt (fun o => neq o d) l2)).
    2:{ intros d _. rewrite (cnt_self (fun v => neq v d)), (cnt_other (fun v => neq v d)). reflexivity. }
    unfold npairs.
    transitivity (sum_nat (map (fun d => sum_nat (map (fun s => sum_nat (map (fun o =>
        if neq s d && neq o d then 1 else 0) l2)) l1)) U)).
    { apply sum_nat_ext. intros d _. rewrite (cnt_sum _ l1). rewrite <- sum_nat_mul.
      apply sum_nat_ext. intros s _. rewrite cnt_sum, <- sum_nat_mul_l. apply sum_nat_ext.
      intros o _. destruct (neq s d), (neq o d); reflexivity. }
    rewrite sum_nat_swap. apply sum_nat_ext. intros s Hs.
    rewrite sum_nat_swap. rewrite cnt_sum. apply sum_nat_ext. intros o Ho.
    rewrite <- cnt_sum. destruct (neq s o) eqn:E.
    - apply distinct_match; auto. eapply HC; eauto.
    - apply cnt_zero. intros d _. destruct (neq s d) eqn:E1, (neq o d) eqn:E2; try reflexivity.
      exfalso. rewrite (neq_trans s d o) in E; try congruence. now rewrite neq_sym.
  Qed.

  (** *** the scan over the descending order *)
  Fixpoint rscan (m : nat) (c0 : Z) (p : list nat) : Z * Z :=
    match p with
    | [] => (0, c0)%Z
    | i :: p' => let st := rscan m c0 p' in
        if i <? m then (fst st + snd st, snd st)%Z else (fst st, snd st - 1)%Z
    end.
  Lemma scan_rscan m c0 p : gk_scan m c0 (rev p) = fst (rscan m c0 p).
  Proof.
    unfold gk_scan. rewrite <- fold_left_rev_right, rev_involutive. f_equal.
    induction p as [|i p IH]; simpl; [reflexivity|]. now rewrite IH.
  Qed.
  Lemma rscan_size m c0 p : snd (rscan m c0 p) = (c0 - Z.of_nat (cnt (fun i => negb (i <? m)%nat) p))%Z.
  Proof.
    induction p as [|i p IH]; simpl; [unfold cnt; simpl; lia|].
    rewrite cnt_cons. destruct (i <? m); simpl; rewrite IH; lia.
  Qed.

  Definition zsum (l : list Z) : Z := fold_right Z.add 0%Z l.
  Lemma zsum_perm l l' : Permutation l l' -> zsum l = zsum l'.
  Proof. induction 1; simpl; lia. Qed.

  Lemma rscan_sum l p : is_stable_argsort l p -> Forall ok l ->
    forall m c0, fst (rscan m c0 p) =
      zsum (map (fun i => (c0 - Z.of_nat (cnt (fun o => nle (vat l i) (vat l o) && negb (o <? m)%nat) p))%Z)
                (filter (fun i => i <? m) p)).
  Proof.
    intros ((Hp & Hs) & Hst) Hok m c0.
    pose proof (perm_seq_length _ _ Hp) as Hl.
    assert (Hoki : forall i, i < length l -> ok (vat l i)).
    { intros i Hi. rewrite Forall_forall in Hok. apply Hok. now apply nth_In. }
    assert (G : forall p2 p1, p = p1 ++ p2 -> fst (rscan m c0 p2) =
      zsum (map (fun i => (c0 - Z.of_nat (cnt (fun o => nle (vat l i) (vat l o) && negb (o <? m)%nat) p))%Z)
                (filter (fun i => i <? m) p2))).
    { induction p2 as [|i p2 IH]; intros p1 E; [reflexivity|].
      assert (IH' := IH (p1 ++ [i])). rewrite <- app_assoc in IH'. specialize (IH' E).
      simpl. destruct (i <? m) eqn:Ei; simpl; [|exact IH'].
      rewrite IH', rscan_size.
      assert (Ecnt : cnt (fun o => nle (vat l i) (vat l o) && negb (o <? m)) p =
                     cnt (fun i => negb (i <? m)) p2).
      { rewrite E, cnt_app, cnt_cons. rewrite (cnt_zero _ p1).
        - rewrite Ei, andb_false_r. simpl. apply cnt_ext. intros o Ho.
          destruct (In_nth _ _ 0 Ho) as (b & Hb & Eo).
          assert (Lb : length p1 + S b < length l) by (rewrite <- Hl, E, app_length; simpl; lia).
          specialize (Hs (length p1) (length p1 + S b)). rewrite E in Hs.
          rewrite app_nth2, Nat.sub_diag in Hs by lia. simpl in Hs.
          rewrite app_nth2 in Hs by lia. replace (length p1 + S b - length p1) with (S b) in Hs by lia.
          simpl in Hs. rewrite Eo in Hs. specialize (Hs ltac:(lia) Lb).
          assert (i < length l) by (apply (perm_seq_In p); [exact Hp|rewrite E; apply in_app_iff; simpl; auto]).
          assert (o < length l) by (apply (perm_seq_In p); [exact Hp|rewrite E; apply in_app_iff; simpl; auto]).
          unfold sle in Hs. pose proof (Hoki i ltac:(assumption)) as Oi. pose proof (Hoki o ltac:(assumption)) as Oo.
          unfold ok in Oi, Oo. rewrite ?Oi, ?Oo in Hs. simpl in Hs.
          now rewrite Hs.
        - intros o Ho. destruct (In_nth _ _ 0 Ho) as (a & Ha & Eo).
          destruct (o <? m) eqn:Eom; [apply andb_false_r|].
          apply Nat.ltb_lt in Ei. apply Nat.ltb_ge in Eom.
          assert (Hil : i < length l) by (apply (perm_seq_In p); [exact Hp|rewrite E; apply in_app_iff; simpl; auto]).
          assert (Hol : o < length l) by (apply (perm_seq_In p); [exact Hp|rewrite E; apply in_app_iff; simpl; auto]).
          assert (Lp1 : length p1 < length l) by (rewrite <- Hl, E, app_length; simpl; lia).
          specialize (Hst a (length p1) Ha Lp1). rewrite E in Hst.
          rewrite (app_nth1 p1 (i :: p2) 0 Ha), Eo in Hst.
          rewrite app_nth2, Nat.sub_diag in Hst by lia. simpl in Hst.
          unfold sle in Hst. pose proof (Hoki i Hil) as Oi. pose proof (Hoki o Hol) as Oo.
          unfold ok in Oi, Oo. rewrite ?Oi, ?Oo in Hst. simpl in Hst.
          destruct (nle (vat l i) (vat l o)); [|reflexivity]. specialize (Hst eq_refl). lia. }
      rewrite Ecnt. lia. }
    apply (G p []). reflexivity.
  Qed.

  Lemma zsum_nat {A} (f : A -> nat) l : zsum (map (fun x => Z.of_nat (f x)) l) = Z.of_nat (sum_nat (map f l)).
  Proof. induction l; simpl; lia. Qed.
  Lemma zsum_ext {A} (f g : A -> Z) l : (forall x, In x l -> f x = g x) -> zsum (map f l) = zsum (map g l).
  Proof.
    induction l as [|x l IH]; intros H; [reflexivity|]. simpl.
    rewrite (H x), IH; simpl; auto. intros y Hy. apply H. simpl; auto.
  Qed.

  Lemma filter_true_in {A} (p : A -> bool) l : (forall x, In x l -> p x = true) -> filter p l = l.
  Proof.
    induction l as [|x l IH]; intros H; [reflexivity|]. simpl. rewrite (H x) by (simpl; auto).
    f_equal. apply IH. intros; apply H; simpl; auto.
  Qed.
  Lemma Permutation_filter' {A} (p : A -> bool) l l' :
    Permutation l l' -> Permutation (filter p l) (filter p l').
  Proof.
    induction 1; simpl; auto.
    - destruct (p x); auto.
    - destruct (p x), (p y); auto. constructor.
    - etransitivity; eauto.
  Qed.

  Lemma filter_self m k : filter (fun i => i <? m) (seq 0 (m + k)) = seq 0 m.
  Proof.
    rewrite seq_split, filter_app.
    rewrite (filter_true_in _ (seq 0 m)).
    2:{ intros x Hx. apply in_seq in Hx. apply Nat.ltb_lt. lia. }
    replace (filter (fun i => i <? m) (map (fun i => m + i) (seq 0 k))) with (@nil nat); [apply app_nil_r|].
    symmetry. induction (seq 0 k) as [|a l IH]; simpl; [reflexivity|].
    destruct (m + a <? m) eqn:E; [apply Nat.ltb_lt in E; lia|]. exact IH.
  Qed.

  (** cc: for each inner value, the ccsize minus the outer values not below it *)
  Lemma scan_correct argsort l1 l2 c0 : stable_ok argsort -> Forall ok l1 -> Forall ok l2 ->
    gk_scan (length l1) c0 (rev (argsort (l1 ++ l2))) =
    zsum (map (fun s => (c0 - Z.of_nat (length l2) + Z.of_nat (cnt (fun o => nlt o s) l2))%Z) l1).
  Proof.
    intros HA H1 H2. specialize (HA (l1 ++ l2)).
    assert (Hok : Forall ok (l1 ++ l2)) by (apply Forall_app; auto).
    rewrite scan_rscan, (rscan_sum _ _ HA Hok).
    destruct HA as ((Hp & _) & _).
    erewrite zsum_perm; [|apply Permutation_map; eapply Permutation_trans].
    2:{ apply Permutation_filter'. exact Hp. }
    2:{ rewrite app_length, filter_self. reflexivity. }
    transitivity (zsum (map (fun s => (c0 - Z.of_nat (length l2) + Z.of_nat (cnt (fun o => nlt o s) l2))%Z)
      (map (vat l1) (seq 0 (length l1))))); [|now rewrite map_vat_seq].
    rewrite map_map. apply zsum_ext.
    intros i Hi. apply in_seq in Hi.
    rewrite (cnt_perm _ _ _ Hp), (cnt_other (fun v => nle (vat (l1 ++ l2) i) v)).
    rewrite vat_app_l by lia.
    assert (E : cnt (fun v => nle (vat l1 i) v) l2 + cnt (fun o => nlt o (vat l1 i)) l2 = length l2).
    { rewrite <- (cnt_neg (fun o => nlt o (vat l1 i)) l2). f_equal. apply cnt_ext.
      intros o Ho. apply (nle_not_lt CL).
      - rewrite Forall_forall in H1. apply H1. apply nth_In. lia.
      - rewrite Forall_forall in H2. now apply H2. }
    lia.
  Qed.

  Lemma scan_dense argsort l1 l2 : stable_ok argsort -> Forall ok l1 -> Forall ok l2 ->
    gk_scan (length l1) (Z.of_nat (length l2)) (rev (argsort (l1 ++ l2))) =
    Z.of_nat (npairs (fun s o => nlt o s) l1 l2).
  Proof.
    intros. rewrite scan_correct by assumption. unfold npairs. rewrite <- zsum_nat.
    apply zsum_ext. intros. lia.
  Qed.

  Lemma npairs_tri l1 l2 : Forall ok l1 -> Forall ok l2 ->
    npairs nlt l1 l2 + npairs (fun s o => nlt o s) l1 l2 + npairs neq l1 l2 = length l1 * length l2.
  Proof.
    intros H1 H2. induction l1 as [|s l1 IH]; unfold npairs in *; simpl; [reflexivity|].
    inversion H1 as [|? ? Hs H1']; subst. specialize (IH H1').
    assert (E : cnt (nlt s) l2 + cnt (fun o => nlt o s) l2 + cnt (neq s) l2 = length l2).
    { apply cnt_split3. intros o Ho. apply tri; [assumption|]. rewrite Forall_forall in H2; auto. }
    lia.
  Qed.
End Vals.
