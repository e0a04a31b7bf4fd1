(** Proofs of C12: sparse versus dense empiric mutual proximity. *)
From Coq Require Import String.
From Coq Require Import ZArith List Arith Lia Bool Reals Lra.
From Flocq Require Import Core BinarySingleNaN.
From Verif Require Import Py Num Arr Conc S_Neighbors S_MP M_IO M_MPEmpiric P_F64 P_Hubness
  P_MPEmpiric P_MPEmpiric2.
Import ListNotations.
Local Open Scope nat_scope.

Lemma prod_dec (x y : nat * nat) : {x = y} + {x <> y}.
Proof. repeat decide equality. Defined.

Lemma pos_eq_spec a b : pos_eq a b = true <-> a = b.
Proof.
  destruct a, b. unfold pos_eq. simpl. rewrite andb_true_iff, !Nat.eqb_eq.
  split; [intros (-> & ->); reflexivity|intros E; injection E; auto].
Qed.

Section Sp.
  Context {V : Type} {N : Num V} {toX : V -> xr} (CL : CmpLaws V N toX).
  Variable pos_add : forall a b : V, nle n0 a = true -> nle n0 b = true ->
    nlt n0 a = true \/ nlt n0 b = true -> neq (nadd a b) n0 = false.
  Variable add00 : neq (nadd n0 n0) (n0 (V:=V)) = true.

  Lemma nle_refl' (x : V) : nisnan x = false -> nle x x = true.
  Proof. rewrite (cl_nan _ _ _ CL), (cl_le _ _ _ CL). generalize (toX x); intros; xr_tac. Qed.
  Lemma nle0_lt (t v : V) : nle n0 t = true -> nisnan v = false -> nle v t = false -> nlt n0 v = true.
  Proof.
    rewrite (cl_nan _ _ _ CL), !(cl_le _ _ _ CL), (cl_lt _ _ _ CL), (cl_0 _ _ _ CL).
    generalize (toX v), (toX t); intros; xr_tac.
  Qed.
  Lemma nle0_pos (v : V) : nlt n0 v = true -> nle n0 v = true.
  Proof.
    rewrite (cl_lt _ _ _ CL), (cl_le _ _ _ CL), (cl_0 _ _ _ CL).
    generalize (toX v); intros; xr_tac.
  Qed.
  Lemma n00 : nle n0 n0 = true.
  Proof. rewrite (cl_le _ _ _ CL), (cl_0 _ _ _ CL). xr_tac. Qed.

  Lemma nnz_cell (t : V) (a b : option V) :
    nle n0 t = true ->
    (forall v, a = Some v -> nle n0 v = true) -> (forall v, b = Some v -> nle n0 v = true) ->
    match sp_plus (sp_cut t a) (sp_cut t b) with Some _ => true | None => false end
    = negb (nle (oval a) t && nle (oval b) t).
  Proof.
    intros Ht Ha Hb.
    assert (P : forall o, (forall v, o = Some v -> nle n0 v = true) ->
       nle n0 (oval (sp_cut t o)) = true /\
       (nle (oval o) t = false -> nlt n0 (oval (sp_cut t o)) = true) /\
       (nle (oval o) t = true -> oval (sp_cut t o) = n0)).
    { intros [v|] Ho; simpl.
      - specialize (Ho v eq_refl). destruct (nle v t) eqn:E.
        + split; [apply n00|]. split; [discriminate|reflexivity].
        + split; [assumption|]. split; [|discriminate]. intros _.
          apply (nle0_lt t); auto. now apply (nle_nan_r CL) in Ho as (_ & Ho).
      - split; [apply n00|]. split; [|reflexivity]. congruence. }
    destruct (P a Ha) as (A1 & A2 & A3). destruct (P b Hb) as (B1 & B2 & B3).
    assert (Q : sp_plus (sp_cut t a) (sp_cut t b) =
       let v := nadd (oval (sp_cut t a)) (oval (sp_cut t b)) in
       match a, b with None, None => None | _, _ => if nonzero v then Some v else None end).
    { destruct a, b; reflexivity. }
    rewrite Q. cbv zeta.
    destruct (nle (oval a) t) eqn:Ea; destruct (nle (oval b) t) eqn:Eb; simpl.
    - rewrite A3, B3 by reflexivity. unfold nonzero. rewrite add00. simpl. destruct a, b; reflexivity.
    - unfold nonzero. rewrite pos_add; auto. simpl.
      destruct a, b; try reflexivity. congruence.
    - unfold nonzero. rewrite pos_add; auto. simpl.
      destruct a, b; try reflexivity. congruence.
    - unfold nonzero. rewrite pos_add; auto. simpl.
      destruct a, b; try reflexivity. cbn [oval] in Ea. congruence.
  Qed.

  (** number of positions not cut = n - number of third points at most as similar *)
  Lemma nnz_count (S : smat V) n i j : srow S = n -> scol S = n -> i < n -> j < n -> i <> j ->
    (forall a b, a < n -> b < n -> stored S a b = stored S b a) ->
    (forall a b v, a < n -> b < n -> stored S a b = Some v -> nle n0 v = true) ->
    (forall a b, a < n -> b < n -> a <> b -> nlt (sval S a b) (sval S a a) = true) ->
    nle n0 (sval S i j) = true ->
    mpes_nnz S (sval S i j) i j
    = n - at_most_similar_to_both (sdense S) n i j (at2 (sdense S) j i).
  Proof.
    intros Hr Hc Hi Hj Hne Hs Hp Hd Ht.
    assert (Es : at2 (sdense S) j i = sval S i j).
    { unfold sdense, sval. cbn [at2]. now rewrite Hs. }
    rewrite Es. set (t := sval S i j) in *.
    unfold mpes_nnz. rewrite Hc.
    rewrite (count_if_ext _ (fun x => negb (nle (sval S i x) t && nle (sval S j x) t))).
    2:{ intros x Hx. apply nnz_cell; [assumption| |]; intros v Hv; [exact (Hp i x v Hi Hx Hv)|exact (Hp j x v Hj Hx Hv)]. }
    assert (E : at_most_similar_to_both (sdense S) n i j t
              = count_if (fun x => nle (sval S i x) t && nle (sval S j x) t) n).
    { unfold at_most_similar_to_both. apply count_if_ext. intros x Hx. cbn [at2 sdense].
      assert (H1 : nle (sval S i i) t = false).
      { pose proof (Hd i j Hi Hj Hne) as H. destruct (nlt_nan_r CL _ _ H).
        rewrite (nle_not_lt CL) by assumption. unfold t. now rewrite H. }
      assert (H2 : nle (sval S j j) t = false).
      { pose proof (Hd j i Hj Hi ltac:(lia)) as H. destruct (nlt_nan_r CL _ _ H).
        assert (Et : t = sval S j i) by (unfold t, sval; now rewrite Hs). rewrite Et.
        rewrite (nle_not_lt CL) by assumption. now rewrite H. }
      destruct (Nat.eqb_spec x i); [subst; now rewrite H1|].
      destruct (Nat.eqb_spec x j); [subst x; rewrite H2, !andb_false_r; reflexivity|]. reflexivity. }
    rewrite E.
    pose proof (count_if_neg (fun x => nle (sval S i x) t && nle (sval S j x) t) n) as Hneg.
    cbv beta in Hneg. lia.
  Qed.

  Lemma mpes_tasks_in (S : smat V) i j :
    In (i, j) (mpes_tasks S) <->
    i < srow S /\ j < scol S /\ i <= j /\ exists v, stored S i j = Some v /\ nonzero v = true.
  Proof.
    unfold mpes_tasks. rewrite filter_In, in_prod_iff, !in_seq, andb_true_iff, Nat.leb_le.
    cbn [fst snd]. split.
    - intros ((H1 & H2) & H3 & H4). destruct (stored S i j) as [v|]; [|discriminate].
      repeat split; try lia. eauto.
    - intros (H1 & H2 & H3 & v & -> & Hv). repeat split; auto; lia.
  Qed.

  (** the shared array after any run of the pool *)
  Lemma mpes_data (S : smat V) min_nnz data :
    pool_run pos_eq (fun _ => n0)
        (map (fun ij => [(ij, mpes_sec_dist S min_nnz (fst ij) (snd ij))]) (mpes_tasks S)) data ->
    forall i j,
      (In (i, j) (mpes_tasks S) -> data (i, j) = mpes_sec_dist S min_nnz i j) /\
      (~ In (i, j) (mpes_tasks S) -> data (i, j) = n0).
  Proof.
    intros H i j.
    pose proof (fun F => pool_run_fun pos_eq pos_eq_spec _ data _
       (fun ij => mpes_sec_dist S min_nnz (fst ij) (snd ij)) F H (i, j)) as G.
    destruct G as (H1 & H2).
    - intros t c v Ht Hin. apply in_map_iff in Ht as (ij & <- & _).
      destruct Hin as [E|[]]. injection E as <- <-. reflexivity.
    - split.
      + intros Hin. apply H1. eexists. split; [apply in_map_iff; exists (i, j); split; [reflexivity|exact Hin]|].
        now left.
      + intros Hn. apply H2. intros t v Ht Hin. apply in_map_iff in Ht as (ij & <- & Hij).
        destruct Hin as [E|[]]. injection E as -> <-. contradiction.
  Qed.
End Sp.

(** hypotheses of C12 on a sparse similarity matrix *)
Record sim_like {V} {N : Num V} (S : smat V) (n : nat) : Prop := {
  sl_r : srow S = n;
  sl_c : scol S = n;
  sl_sym : forall i j, i < n -> j < n -> stored S i j = stored S j i;
  sl_pos : forall i j v, i < n -> j < n -> stored S i j = Some v -> nle n0 v = true;
  sl_self : forall i j, i < n -> j < n -> i <> j -> nlt (sval S i j) (sval S i i) = true
}.

Section Assemble.
  Context {V : Type} {N : Num V} {toX : V -> xr} (CL : CmpLaws V N toX).
  Variable pos_add : forall a b : V, nle n0 a = true -> nle n0 b = true ->
    nlt n0 a = true \/ nlt n0 b = true -> neq (nadd a b) n0 = false.
  Variable add00 : neq (nadd n0 n0) (n0 (V:=V)) = true.
  (** what a value v becomes when a matrix with zero at the mirrored position is added *)
  Variable P : V -> Prop.
  Hypothesis P_frac : forall c n, c <= n -> 0 < n -> size_ok n ->
    P (nsub n1 (ndiv (nofnat c) (nofnat n))).
  Hypothesis P_add : forall v, P v -> nadd v n0 = v /\ nadd n0 v = v.
  Hypothesis P_zero : forall v, P v -> neq v n0 = true -> v = n0.

  Lemma mpes_spec (S : smat V) metric t m R n : size_ok n ->
    sim_like S n ->
    mp_empiric_sparse S metric t m (Ok R) ->
    srow R = n /\ scol R = n /\
    (forall i, i < n -> stored R i i = Some n1) /\
    forall i j, i < n -> j < n -> i <> j -> m < row_nnz S i -> m < row_nnz S j ->
      (stored S i j = None -> stored R i j = None) /\
      (forall v, stored S i j = Some v -> nonzero v = true ->
         sval R i j =
         nsub n1 (ndiv (nofnat (n - at_most_similar_to_both (sdense S) n (Nat.min i j) (Nat.max i j)
                                      (sval S i j))) (nofnat n))).
  Proof.
    intros Hb [Hr Hc Hs Hp Hd] H. inversion H as [| | | |data Hsq Hm Ht Hrun]; subst R.
    unfold mpes_assemble. cbn [srow scol stored].
    split; [assumption|]. split; [assumption|].
    split; [intros i _; now rewrite Nat.eqb_refl|].
    intros i j Hi Hj Hne Ni Nj.
    apply Nat.eqb_neq in Hne as Hne'.
    assert (Ni' : (row_nnz S i <=? m) = false) by (apply Nat.leb_gt; assumption).
    assert (Nj' : (row_nnz S j <=? m) = false) by (apply Nat.leb_gt; assumption).
    unfold sval at 1. cbn [stored]. rewrite Hne', Ni'. unfold is_stored.
    rewrite (Hs j i Hj Hi). split.
    - intros ->. reflexivity.
    - intros v Hv Hz. rewrite Hv. cbn [sp_plus oval].
      pose proof (mpes_data S m data Hrun) as Hdata.
      assert (Tup : forall a b, a < n -> b < n -> a < b -> stored S a b = Some v -> In (a, b) (mpes_tasks S)).
      { intros a b Ha Hb' Hab E. apply mpes_tasks_in. rewrite Hr, Hc.
        repeat split; auto; try lia. eauto. }
      assert (Tlow : forall a b, b < a -> ~ In (a, b) (mpes_tasks S)).
      { intros a b Hab Hin. apply mpes_tasks_in in Hin. lia. }
      assert (Hnn : nle n0 v = true) by (eapply Hp; [| |exact Hv]; assumption).
      assert (Val : forall a b, a < n -> b < n -> a < b -> stored S a b = Some v ->
         m < row_nnz S a -> m < row_nnz S b ->
         data (a, b) = nsub n1 (ndiv (nofnat (n - at_most_similar_to_both (sdense S) n a b v)) (nofnat n))).
      { intros a b Ha Hb' Hab E Na Nb. rewrite (proj1 (Hdata a b)) by (apply Tup; assumption).
        unfold mpes_sec_dist.
        replace (row_nnz S a <=? m) with false by (symmetry; apply Nat.leb_gt; assumption).
        replace (row_nnz S b <=? m) with false by (symmetry; apply Nat.leb_gt; assumption).
        cbn [orb]. rewrite (nnz_count CL pos_add add00 S n a b); auto; try lia.
        - rewrite Hr. do 4 f_equal. cbn [at2 sdense]. unfold sval. now rewrite (Hs b a), E.
        - unfold sval. rewrite E. assumption. }
      assert (Sum : nadd (data (i, j)) (data (j, i)) =
        nsub n1 (ndiv (nofnat (n - at_most_similar_to_both (sdense S) n (Nat.min i j) (Nat.max i j) v)) (nofnat n))).
      { assert (Pv : forall a b, P (nsub n1 (ndiv (nofnat (n - at_most_similar_to_both (sdense S) n a b v)) (nofnat n)))).
        { intros. apply P_frac; auto; lia. }
        destruct (Nat.lt_ge_cases i j).
        - rewrite Nat.min_l, Nat.max_r by lia. rewrite (proj2 (Hdata j i)) by (apply Tlow; lia).
          rewrite (Val i j) by assumption. apply P_add, Pv.
        - rewrite Nat.min_r, Nat.max_l by lia. rewrite (proj2 (Hdata i j)) by (apply Tlow; lia).
          rewrite (Val j i) by (try assumption; try lia; now rewrite Hs). apply P_add, Pv. }
      rewrite Sum. unfold sval. rewrite Hv. cbn [oval].
      set (w := nsub n1 _) in *.
      assert (Pw : P w) by (apply P_frac; auto; lia).
      unfold nonzero. destruct (neq w n0) eqn:E; cbn [negb oval]; [|reflexivity].
      symmetry. now apply P_zero.
  Qed.

  Lemma mpes_exists (S : smat V) t m n : sim_like S n -> test_ind_rejected t = false ->
    exists R, mp_empiric_sparse S "similarity" t m (Ok R).
  Proof.
    intros [Hr Hc _ _ _] Ht. eexists. apply mpes_ok; auto; [congruence|]. apply pool_run_exists.
  Qed.
End Assemble.

Lemma add00_f64 : neq (nadd n0 n0) (n0 (V:=f64)) = true.
Proof. reflexivity. Qed.
Lemma unit_zero (v : f64) : is_unit v -> neq v n0 = true -> v = n0.
Proof.
  intros (F & S & _) H. destruct v as [s|s| |s m e Hb]; try discriminate.
  - simpl in S. subst s. reflexivity.
  - destruct s; discriminate.
Qed.
Lemma unit_frac c n : c <= n -> 0 < n -> size_ok n ->
  is_unit (nsub n1 (ndiv (nofnat c) (nofnat n))).
Proof. intros. apply compl_correct. now apply frac_unit. Qed.

Definition mpes_spec_f64 := mpes_spec f64_cmp pos_add_f64 add00_f64 is_unit unit_frac unit_add0 unit_zero.

(** any two pool runs give the same matrix (no floating point assumption at all) *)
Lemma mpes_schedule {V} {N : Num V} (S : smat V) metric t m R R' :
  mp_empiric_sparse S metric t m (Ok R) -> mp_empiric_sparse S metric t m (Ok R') ->
  srow R = srow R' /\ scol R = scol R' /\ forall i j, stored R i j = stored R' i j.
Proof.
  intros H H'. inversion H as [| | | |d _ _ _ Hd]; subst R.
  inversion H' as [| | | |d' _ _ _ Hd']; subst R'.
  split; [reflexivity|]. split; [reflexivity|]. intros i j.
  assert (E : forall i j, d (i, j) = d' (i, j)).
  { intros a b. destruct (mpes_data S m d Hd a b) as (A1 & A2), (mpes_data S m d' Hd' a b) as (B1 & B2).
    destruct (in_dec (fun x y : nat * nat => prod_dec x y) (a, b) (mpes_tasks S)) as [Y|Y].
    - now rewrite A1, B1.
    - now rewrite A2, B2. }
  unfold mpes_assemble. cbn [stored]. destruct (i =? j); [reflexivity|].
  destruct (row_nnz S i <=? m); [reflexivity|]. unfold sp_plus.
  rewrite !E. reflexivity.
Qed.

(** exact arithmetic *)
Lemma pos_add_xr (a b : xr) : nle n0 a = true -> nle n0 b = true ->
  nlt n0 a = true \/ nlt n0 b = true -> neq (nadd a b) n0 = false.
Proof.
  unfold n0. simpl. destruct a, b; simpl; intros H1 H2 H3; try discriminate; try reflexivity;
  destruct (Rle_dec 0 r); try discriminate; destruct (Rle_dec 0 r0); try discriminate.
  destruct (Req_EM_T (r + r0) 0); [|reflexivity].
  destruct (Rlt_dec 0 r), (Rlt_dec 0 r0); try lra.
Qed.
Lemma add00_xr : neq (nadd n0 n0) (n0 (V:=xr)) = true.
Proof. simpl. destruct (Req_EM_T (0 + 0) 0); [reflexivity|lra]. Qed.

Definition xfin (x : xr) : Prop := exists r, x = XFin r.
Lemma xr_frac_val c n : 0 < n -> ndiv (V:=xr) (nofnat c) (nofnat n) = XFin (INR c / INR n).
Proof.
  intros Hn. unfold nofnat. simpl. rewrite !INR_IZR_INZ.
  destruct (Req_EM_T (IZR (Z.of_nat n)) 0) as [E|E]; [|reflexivity].
  apply eq_IZR in E. lia.
Qed.
Lemma xr_frac c n : c <= n -> 0 < n -> size_ok n ->
  xfin (nsub n1 (ndiv (nofnat c) (nofnat n))).
Proof. intros Hc Hn _. rewrite xr_frac_val by assumption. simpl. now eexists. Qed.
Lemma xr_add0 v : xfin v -> nadd v n0 = v /\ nadd n0 v = v.
Proof. intros (r & ->). simpl. split; f_equal; ring. Qed.
Lemma xr_zero v : xfin v -> neq v n0 = true -> v = n0.
Proof. intros (r & ->). unfold n0. simpl. destruct (Req_EM_T r 0); [now subst|discriminate]. Qed.
Definition mpes_spec_xr := mpes_spec xr_cmp pos_add_xr add00_xr xfin xr_frac xr_add0 xr_zero.

Lemma xr_compl_frac c n : c <= n -> 0 < n ->
  nsub (V:=xr) n1 (ndiv (nofnat (n - c)) (nofnat n)) = ndiv (nofnat c) (nofnat n).
Proof.
  intros Hc Hn. rewrite !xr_frac_val by assumption. simpl. f_equal.
  rewrite minus_INR by assumption. field. apply not_0_INR. lia.
Qed.

Lemma xr_full_at metric (D : arr2 xr) i j :
  i < nrow D -> j < nrow D -> 
  at2 (mp_full_core metric D) i j =
  if i =? j then mp_self metric else mp_pair metric D (Nat.min i j) (Nat.max i j).
Proof.
  intros Hi Hj. rewrite mp_full_at by assumption.
  destruct (Nat.eqb_spec i j) as [|Hne]; [reflexivity|].
  assert (U : forall a b, xfin (mp_pair metric D a b)).
  { intros a b. unfold mp_pair, mp_value. destruct (is_sim metric);
    rewrite xr_frac_val by lia; simpl; now eexists. }
  destruct (Nat.ltb_spec i j).
  - rewrite Nat.min_l, Nat.max_r by lia. apply xr_add0, U.
  - rewrite Nat.min_r, Nat.max_l by lia. apply xr_add0, U.
Qed.
