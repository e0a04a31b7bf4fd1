(** Proofs about dense empiric MP. *)
From Coq Require Import String.
From Coq Require Import ZArith List Arith Lia Bool Reals Lra.
From Verif Require Import Py Num Arr S_Neighbors S_MP M_IO M_MPEmpiric P_F64 P_Hubness.
Import ListNotations.
Local Open Scope nat_scope.

(** the upper triangle loop writes v(i,j) at i < j and leaves the rest *)
Lemma triu_loop {V} n (v : nat -> nat -> V) z i j :
  i < n -> j < n ->
  at2 (for_ (n - 1) (fun i M => setrow M i (i + 1) n (v i)) (full2 n n z)) i j
  = if i <? j then v i j else z.
Proof.
  intros Hi Hj.
  assert (G : forall k, k <= n - 1 ->
    let M := for_ k (fun i M => setrow M i (i + 1) n (v i)) (full2 n n z) in
    nrow M = n /\ ncol M = n /\
    forall a b, a < n -> b < n -> at2 M a b = if (a <? k) && (a <? b) then v a b else z).
  { induction k as [|k IH]; intros Hk.
    - rewrite for_0. cbn. repeat split.
    - cbv zeta in *. rewrite for_S.
      destruct IH as (R & C & A); [lia|]. cbn [nrow ncol at2 setrow]. split; [assumption|]. split; [assumption|].
      intros a b Ha Hb. rewrite A by assumption.
      destruct (Nat.eqb_spec a k) as [E|E].
      + subst a. replace (k <? S k) with true by (symmetry; apply Nat.ltb_lt; lia).
        rewrite Nat.ltb_irrefl. simpl.
        replace (k + 1 <=? b) with (k <? b).
        * destruct (k <? b); simpl; [|reflexivity].
          replace (b <? n) with true by (symmetry; apply Nat.ltb_lt; lia). reflexivity.
        * destruct (Nat.ltb_spec k b), (Nat.leb_spec (k + 1) b); lia || reflexivity.
      + simpl. replace (a <? S k) with (a <? k); [reflexivity|].
        destruct (Nat.ltb_spec a k), (Nat.ltb_spec a (S k)); lia || reflexivity. }
  destruct (G (n - 1) (le_n _)) as (_ & _ & A). rewrite A by assumption.
  destruct (Nat.ltb_spec i j); [|now rewrite andb_false_r].
  replace (i <? n - 1) with true by (symmetry; apply Nat.ltb_lt; lia). reflexivity.
Qed.

Lemma for_shape {V} n (f : nat -> arr2 V -> arr2 V) M :
  (forall i M, nrow (f i M) = nrow M /\ ncol (f i M) = ncol M) ->
  nrow (for_ n f M) = nrow M /\ ncol (for_ n f M) = ncol M.
Proof.
  intros H. induction n as [|n IH]; [split; reflexivity|].
  rewrite for_S. destruct (H n (for_ n f M)) as (-> & ->). assumption.
Qed.

Section MP.
  Context {V : Type} {N : Num V} {toX : V -> xr} (CL : CmpLaws V N toX).

  Lemma mp_full_shape metric (D : arr2 V) :
    nrow (mp_full_core metric D) = nrow D /\ ncol (mp_full_core metric D) = nrow D.
  Proof.
    unfold mp_full_core. cbv zeta. cbn [nrow ncol fill_diagonal zip2].
    set (f := fun i M => setrow M i (i + 1) (nrow D) _).
    destruct (for_shape (nrow D - 1) f (full2 (nrow D) (nrow D) n0)) as (-> & ->);
      [intros; split; reflexivity|]. split; reflexivity.
  Qed.

  (** the value the loop puts at i < j *)
  Definition mp_pair (metric : string) (D : arr2 V) (i j : nat) : V :=
    let E := fill_diagonal D (mp_exclude metric) in
    mp_value metric (nrow D) (at2 E i) (at2 E j) (at2 E j i) (nrow D).

  Lemma mp_full_at metric (D : arr2 V) i j : i < nrow D -> j < nrow D ->
    at2 (mp_full_core metric D) i j =
    if i =? j then mp_self metric
    else if i <? j then nadd (mp_pair metric D i j) n0
    else nadd n0 (mp_pair metric D j i).
  Proof.
    intros Hi Hj. unfold mp_full_core. cbv zeta. cbn [at2 fill_diagonal zip2 transpose].
    destruct (Nat.eqb_spec i j) as [E|E]; [reflexivity|].
    set (v := fun i j => mp_pair metric D i j).
    assert (T : forall a b, a < nrow D -> b < nrow D ->
      at2 (for_ (nrow D - 1)
         (fun (i : nat) (M : arr2 V) => setrow M i (i + 1) (nrow D)
            (fun j => mp_value metric (nrow D) (at2 (fill_diagonal D (mp_exclude metric)) i)
               (at2 (fill_diagonal D (mp_exclude metric)) j)
               (at2 (fill_diagonal D (mp_exclude metric)) j i) (nrow D)))
         (full2 (nrow D) (nrow D) n0)) a b = if a <? b then v a b else n0)
      by (intros a b Ha Hb; now apply (triu_loop (nrow D) v n0)).
    unfold fill_diagonal in *. rewrite !T by assumption. unfold v.
    destruct (Nat.ltb_spec i j), (Nat.ltb_spec j i); try lia; reflexivity.
  Qed.

  (** the loop counts exactly the third points of the specification *)
  Lemma mp_pair_dist (D : arr2 V) i j : i <> j ->
    mp_pair "distance" D i j =
    nsub n1 (ndiv (nofnat (farther_from_both D (nrow D) i j (at2 D j i))) (nofnat (nrow D))).
  Proof.
    intros Hne. unfold mp_pair, mp_value. change (is_sim "distance") with false. cbv iota zeta.
    do 3 f_equal. unfold farther_from_both. apply count_if_ext. intros x Hx.
    cbn [at2 fill_diagonal]. change (mp_exclude (V:=V) "distance") with (nninf (V:=V)).
    destruct (Nat.eqb_spec j i) as [E|_]; [congruence|].
    rewrite (Nat.eqb_sym i x), (Nat.eqb_sym j x).
    destruct (x =? i), (x =? j); simpl;
      rewrite ?(nlt_ninf_false CL), ?andb_false_r; reflexivity.
  Qed.

  Lemma mp_pair_sim (S : arr2 V) i j : i <> j -> nlt (at2 S j i) ninf = true ->
    mp_pair "similarity" S i j =
    ndiv (nofnat (at_most_similar_to_both S (nrow S) i j (at2 S j i))) (nofnat (nrow S)).
  Proof.
    intros Hne Hfin. unfold mp_pair, mp_value. change (is_sim "similarity") with true. cbv iota zeta.
    do 2 f_equal. unfold at_most_similar_to_both. apply count_if_ext. intros x Hx.
    cbn [at2 fill_diagonal]. change (mp_exclude (V:=V) "similarity") with (ninf (V:=V)).
    destruct (Nat.eqb_spec j i) as [E|_]; [congruence|].
    assert (Hinf : nle ninf (at2 S j i) = false).
    { destruct (nlt_nan_r CL _ _ Hfin) as (H1 & H2).
      rewrite (nle_not_lt CL) by assumption. now rewrite Hfin. }
    rewrite (Nat.eqb_sym i x), (Nat.eqb_sym j x).
    destruct (x =? i), (x =? j); simpl; rewrite ?Hinf, ?andb_false_r; reflexivity.
  Qed.

  Lemma count_if_three p n i j : i < n -> j < n -> i <> j ->
    count_if (fun x => negb (x =? i) && negb (x =? j) && p x) n <= n - 2.
  Proof.
    intros Hi Hj Hne.
    assert (count_if (fun x => negb (x =? i) && negb (x =? j) && p x) n + 2 <= n); [|lia].
    apply (count_if_excl2 _ n i j Hi Hj Hne); rewrite Nat.eqb_refl, ?andb_false_r; reflexivity.
  Qed.
End MP.
