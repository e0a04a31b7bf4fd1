(** Lemmas about R-precision. *)
From Coq Require Import String.
From Coq Require Import ZArith List Arith Lia Bool Permutation.
From Verif Require Import Py Num Arr Sort S_Neighbors M_IO M_GK M_SNN M_KNN M_MPEmpiric M_SparseKNN.
From Verif Require Import S_SparseKNN P_Neighbors P_KNN P_GK2 P_SparseKNN.
Import ListNotations.
Local Open Scope nat_scope.

(** ** encoded labels *)
Section Enc.
  Variable lab : list Z.
  Definition ecl : list Z := unique_labels (lab ++ [int_min]).
  Definition enc : list nat := map (class_index ecl) lab.
  Definition erel : list Z := map (fun c => (Z.of_nat c - 1)%Z) (bincount enc 0).

  Lemma lab_in x : x < length lab -> In (nth x lab 0%Z) ecl.
  Proof. intros H. apply unique_In, in_app_iff. left. now apply nth_In. Qed.
  Lemma min_in : In int_min ecl.
  Proof. apply unique_In, in_app_iff. right. now left. Qed.
  Lemma enc_length : length enc = length lab.
  Proof. apply map_length. Qed.
  Lemma nth_enc x : x < length lab -> nth x enc 0 = class_index ecl (nth x lab 0%Z).
  Proof.
    intros H. unfold enc. rewrite nth_indep with (d' := class_index ecl 0%Z) by (now rewrite map_length). apply map_nth.
  Qed.
  Lemma enc_dec x : x < length lab -> nth (nth x enc 0) ecl 0%Z = nth x lab 0%Z.
  Proof. intros H. rewrite nth_enc by exact H. now apply class_index_nth, lab_in. Qed.
  Lemma enc_eqb x i : x < length lab -> i < length lab ->
    (nth x enc 0 =? nth i enc 0) = (nth x lab 0 =? nth i lab 0)%Z.
  Proof.
    intros Hx Hi. rewrite !nth_enc by assumption.
    destruct (Z.eqb_spec (nth x lab 0%Z) (nth i lab 0%Z)) as [->|Hne]; [apply Nat.eqb_refl|].
    apply Nat.eqb_neq. intros E. apply Hne. eapply class_index_inj; [| |exact E]; now apply lab_in.
  Qed.

  Lemma count_occ_filter (l : list nat) c : count_occ Nat.eq_dec l c = length (filter (fun x => x =? c) l).
  Proof.
    induction l as [|a l IH]; simpl; [reflexivity|]. destruct (Nat.eq_dec a c) as [->|H].
    - rewrite Nat.eqb_refl. simpl. now rewrite IH.
    - apply Nat.eqb_neq in H. now rewrite H.
  Qed.

  Lemma fold_max_lt (l : list nat) x : In x l -> x < fold_right (fun x a => Nat.max (S x) a) 0 l.
  Proof. induction l as [|a l IH]; cbn [In fold_right]; [contradiction|]. intros [->|H]; [lia|]. specialize (IH H). lia. Qed.

  Lemma filter_map_seq {A} (f : A -> bool) (l : list A) d :
    length (filter f l) = length (filter (fun x => f (nth x l d)) (seq 0 (length l))).
  Proof.
    induction l as [|a l IH] using rev_ind; [reflexivity|].
    rewrite app_length. simpl. rewrite Nat.add_1_r, seq_S, !filter_app, !app_length. f_equal.
    - rewrite IH. f_equal. apply filter_ext_in. intros x Hx. apply in_seq in Hx. now rewrite app_nth1 by lia.
    - simpl. rewrite app_nth2, Nat.sub_diag by lia. simpl. now destruct (f a).
  Qed.

  Lemma filter_split_one (f : nat -> bool) n i : i < n -> f i = true ->
    length (filter f (seq 0 n)) = S (length (filter (fun x => negb (x =? i) && f x) (seq 0 n))).
  Proof.
    intros Hi Hf. replace n with (i + S (n - i - 1)) by lia. rewrite seq_app, !filter_app, !app_length. simpl.
    rewrite Hf, Nat.eqb_refl. simpl. rewrite Nat.add_succ_r. do 2 f_equal.
    - f_equal. apply filter_ext_in. intros x Hx. apply in_seq in Hx. replace (x =? i) with false; [reflexivity|].
      symmetry. apply Nat.eqb_neq. lia.
    - f_equal. apply filter_ext_in. intros x Hx. apply in_seq in Hx. replace (x =? i) with false; [reflexivity|].
      symmetry. apply Nat.eqb_neq. lia.
  Qed.

  Lemma rel_relevant i : i < length lab -> nth (nth i enc 0) erel 0%Z = Z.of_nat (relevant lab i).
  Proof.
    intros Hi. unfold erel, bincount. rewrite map_map. rewrite Nat.max_0_l.
    set (m := fold_right _ 0 enc).
    assert (Hc : nth i enc 0 < m) by (apply fold_max_lt, nth_In; now rewrite enc_length).
    rewrite nth_indep with (d' := (fun x => (Z.of_nat (count_occ Nat.eq_dec enc x) - 1)%Z) 0)
      by (rewrite map_length, seq_length; exact Hc).
    rewrite (map_nth (fun x => (Z.of_nat (count_occ Nat.eq_dec enc x) - 1)%Z)).
    rewrite seq_nth by exact Hc. simpl. rewrite count_occ_filter, (filter_map_seq _ enc 0), enc_length.
    unfold relevant. rewrite (filter_ext_in _ (fun x => (nth x lab 0 =? nth i lab 0)%Z)).
    2:{ intros x Hx. apply in_seq in Hx. apply enc_eqb; lia. }
    rewrite (filter_split_one (fun x => (nth x lab 0 =? nth i lab 0)%Z) _ i Hi (Z.eqb_refl _)). lia.
  Qed.

  Lemma hits_enc i nn : i < length lab -> (forall x, In x nn -> x < length lab) ->
    length (filter (fun c' => c' =? nth i enc 0) (take 0 enc nn)) = hits lab i nn.
  Proof.
    intros Hi H. unfold hits, take. induction nn as [|x nn IH]; simpl; [reflexivity|].
    rewrite enc_eqb by (auto; apply H; now left).
    destruct (_ =? _)%Z; simpl; rewrite IH by (intros; apply H; now right); reflexivity.
  Qed.
End Enc.

Lemma hits_perm lab i nn nn' : Permutation nn nn' -> hits lab i nn = hits lab i nn'.
Proof. intros H. unfold hits. induction H; simpl; try destruct (_ =? _)%Z; try destruct (nth _ _ _ =? _)%Z; simpl; auto; congruence. Qed.

(** with pairwise different similarities the list is unique up to order *)
Lemma top_list_unique {V} {N : Num V} (v : nat -> V) (cand : nat -> Prop) m nn nn' :
  (forall x y, cand x -> cand y -> x <> y -> nlt (v x) (v y) = true \/ nlt (v y) (v x) = true) ->
  top_list v cand m nn -> top_list v cand m nn' -> Permutation nn nn'.
Proof.
  intros Hd T T'.
  assert (Hinc : forall a b, top_list v cand m a -> top_list v cand m b -> incl a b).
  { intros a b A B x Hx. destruct (in_dec Nat.eq_dec x b) as [|Hn]; [assumption|]. exfalso.
    assert (Hy : exists y, In y b /\ ~ In y a).
    { destruct (Forall_Exists_dec (fun y => In y a) (fun y => in_dec Nat.eq_dec y a) b) as [F|E].
      - exfalso. assert (NoDup (x :: b)) by (constructor; [assumption|apply (tl_nodup _ _ _ _ B)]).
        assert (incl (x :: b) a). { intros z [<-|Hz]; [assumption|]. rewrite Forall_forall in F. auto. }
        pose proof (NoDup_incl_length H H0) as L. simpl in L.
        rewrite (tl_len _ _ _ _ A), (tl_len _ _ _ _ B) in L. lia.
      - apply Exists_exists in E. exact E. }
    destruct Hy as (y & Hy & Hny).
    pose proof (tl_best _ _ _ _ A y x (tl_in _ _ _ _ B y Hy) Hny Hx) as E1.
    pose proof (tl_best _ _ _ _ B x y (tl_in _ _ _ _ A x Hx) Hn Hy) as E2.
    destruct (Hd x y (tl_in _ _ _ _ A x Hx) (tl_in _ _ _ _ B y Hy)) as [E|E]; [congruence| |]; congruence. }
  apply NoDup_Permutation; [apply (tl_nodup _ _ _ _ T)|apply (tl_nodup _ _ _ _ T')|].
  intros x. split; [apply (Hinc nn nn' T T')|apply (Hinc nn' nn T' T)].
Qed.

Section Worker.
  Context {V : Type} {N : Num V} {toX : V -> xr} (CL : CmpLaws V N toX).
  Variable argpart : list V -> list nat -> list nat.
  Hypothesis AP : argpart_ok argpart.
  Variable rp : nat -> list nat -> list nat.
  Hypothesis RP : forall i l, Permutation (rp i l) l.
  Variable sh : nat -> nat -> list nat -> list nat.
  Hypothesis SH : forall i j l, Permutation (sh i j l) l.

  Definition item_val (lab : list Z) (i : nat) (nn : list nat) : V :=
    if hits lab i nn =? 0 then n0 else ndiv (nofnat (hits lab i nn)) (nofnat (relevant lab i)).
  Definition item_lab (lab : list Z) (i : nat) (nn : list nat) (yp : nat) : list Z :=
    if hits lab i nn =? 0 then repeat int_min yp
    else firstn yp (map (fun x => nth x lab 0%Z) nn) ++ repeat int_min (yp - length nn).

  Lemma skipn_repeat {A} (a : A) n m : skipn n (repeat a m) = repeat a (m - n).
  Proof. revert m; induction n; intros [|m]; simpl; auto. Qed.
  Lemma map_repeat' {A B} (f : A -> B) a n : map f (repeat a n) = repeat (f a) n.
  Proof. induction n; simpl; congruence. Qed.

  Lemma worker_spec (S : smat V) (lab : list Z) yp i : scol S = length lab -> i < length lab ->
    clean_row S i -> (relevant lab i <> 0 -> sp_cols S i <> []) ->
    exists w nn nn',
      (relevant lab i = 0 -> nn = []) /\
      (relevant lab i <> 0 -> linked S i w /\ (forall x, linked S i x -> nlt (sval S i w) (sval S i x) = false) /\
         top_list (sval S i) (fun x => linked S i x /\ x <> w) (Nat.min (relevant lab i) (length (sp_cols S i) - 1)) nn) /\
      Permutation nn' nn /\ ((exists x, In x nn /\ nisfin (sval S i x) = true) -> nn' = nn) /\
      exists q, rprec_worker argpart rp sh S (enc lab) (erel lab) yp (class_index (ecl lab) int_min) i = Ok q /\
        fst q = item_val lab i nn' /\ map (fun c => nth c (ecl lab) 0%Z) (snd q) = item_lab lab i nn' yp.
  Proof.
    intros HS Hi HC Hne. unfold rprec_worker. rewrite (rel_relevant lab i Hi).
    assert (Hmin : map (fun c => nth c (ecl lab) 0%Z) (repeat (class_index (ecl lab) int_min) yp) = repeat int_min yp).
    { rewrite map_repeat'. f_equal. apply class_index_nth, min_in. }
    destruct (Nat.eq_dec (relevant lab i) 0) as [E0|E0].
    { rewrite E0. simpl. exists 0, [], []. split; [reflexivity|]. split; [congruence|]. split; [constructor|].
      split; [reflexivity|]. eexists. split; [reflexivity|]. split; [reflexivity|]. exact Hmin. }
    destruct (Z.eqb_spec (Z.of_nat (relevant lab i)) 0) as [E|_]; [lia|].
    assert (Hpos : 0 < length (sp_cols S i)). { specialize (Hne E0). destruct (sp_cols S i); [congruence|simpl; lia]. }
    destruct (ranked_spec CL argpart AP S i (rp i (seq 0 (length (sp_cols S i)))) [relevant lab i] HC Hpos (RP _ _))
      as (w & t & Er & Pt & Hw & Ht & _).
    change [Z.of_nat (relevant lab i)] with (map Z.of_nat [relevant lab i]). rewrite Er. cbn [bind tl].
    replace (prefix t (Z.of_nat (relevant lab i))) with (firstn (relevant lab i) t).
    2:{ unfold prefix. destruct (Z.ltb_spec (Z.of_nat (relevant lab i)) 0); [lia|]. now rewrite Nat2Z.id. }
    specialize (Ht _ (or_introl eq_refl)). set (nn := firstn (relevant lab i) t) in *.
    set (nn' := match filter (fun x => nisfin (sval S i x)) nn with [] => sh i 0 nn | _ => nn end).
    assert (Pn : Permutation nn' nn).
    { unfold nn'. destruct (filter _ nn); [apply SH|reflexivity]. }
    exists w, nn, nn'. split; [congruence|]. split.
    { intros _. split; [apply stored_linked, (Permutation_in _ Pt); now left|]. split; [exact Hw|exact Ht]. }
    split; [exact Pn|]. split.
    { intros (x & Hx & Hf). unfold nn'. destruct (filter _ nn) as [|y r] eqn:Ef; [|reflexivity].
      exfalso. assert (In x (filter (fun x => nisfin (sval S i x)) nn)) by (apply filter_In; auto). rewrite Ef in H. contradiction. }
    assert (Hlt : forall x, In x nn' -> x < length lab).
    { intros x Hx. apply (Permutation_in _ Pn) in Hx. apply (tl_in _ _ _ _ Ht) in Hx. destruct Hx as ((Hx & _) & _). lia. }
    rewrite (hits_enc lab i nn' Hi Hlt). unfold item_val, item_lab.
    destruct (hits lab i nn' =? 0) eqn:Eh.
    - eexists. split; [reflexivity|]. split; [reflexivity|]. exact Hmin.
    - eexists. split; [reflexivity|]. split; [reflexivity|]. cbn [snd]. rewrite map_app. f_equal.
      + unfold take. rewrite <- firstn_map, map_map. f_equal. apply map_ext_in. intros x Hx. now apply enc_dec, Hlt.
      + rewrite skipn_repeat, map_repeat'. rewrite (class_index_nth _ _ (min_in lab)). f_equal.
        unfold take. rewrite firstn_length, map_length. lia.
  Qed.
End Worker.
