(** Proofs about Mutual Proximity with parametric distributions. *)
From Coq Require Import String.
From Coq Require Import ZArith List Arith Lia Bool Permutation Reals Lra.
From Verif Require Import Py Num NumT Arr S_Neighbors S_MP S_Approx S_MPDist M_IO M_MPEmpiric M_Approx M_MPDist.
From Verif Require Import P_MPEmpiric P_MPEmpiric2 P_ApproxMPG.
Import ListNotations.
Local Open Scope nat_scope.

Section Gen.
  Context {V : Type} {N : Num V}.

  Lemma mirror_shape metric n (v : nat -> nat -> V) :
    nrow (mirror metric n v) = n /\ ncol (mirror metric n v) = n.
  Proof.
    unfold mirror. cbv zeta. cbn [nrow ncol fill_diagonal zip2].
    destruct (for_shape n (fun i M => setrow M i (i + 1) n (v i)) (full2 n n n0)) as (-> & ->);
      [intros; split; reflexivity|]. split; reflexivity.
  Qed.
  Lemma mirror_at metric n (v : nat -> nat -> V) i j : i < n -> j < n ->
    at2 (mirror metric n v) i j =
    if i =? j then mp_self metric else if i <? j then nadd (v i j) n0 else nadd n0 (v j i).
  Proof.
    intros Hi Hj. unfold mirror. cbv zeta. cbn [at2 fill_diagonal zip2 transpose].
    destruct (Nat.eqb_spec i j) as [E|E]; [reflexivity|].
    assert (T : forall a b, a < n -> b < n ->
      at2 (for_ n (fun i M => setrow M i (i + 1) n (v i)) (full2 n n n0)) a b = if a <? b then v a b else n0).
    { intros a b Ha Hb. rewrite <- (triu_loop n v n0 a b Ha Hb). destruct n as [|m]; [lia|].
      replace (S m - 1) with m by lia. rewrite for_S. cbn [at2 setrow].
      destruct (Nat.leb_spec (m + 1) b); [lia|]. now rewrite andb_false_r. }
    rewrite !T by assumption. destruct (Nat.ltb_spec i j), (Nat.ltb_spec j i); try lia; reflexivity.
  Qed.

  Lemma train_rows_spec n test : train_rows n test = training n test.
  Proof.
    destruct test as [t|]; [|reflexivity]. cbn [train_rows training]. apply filter_ext. intros l.
    destruct (in_dec Z.eq_dec (Z.of_nat l) t) as [I|I].
    - apply negb_false_iff. apply existsb_exists. exists (Z.of_nat l). split; [exact I|apply Z.eqb_refl].
    - apply negb_true_iff. destruct (existsb _ t) eqn:E; [|reflexivity].
      apply existsb_exists in E as (z & Hz & Ez). apply Z.eqb_eq in Ez. congruence.
  Qed.
  Lemma training_lt n test l : In l (training n test) -> l < n.
  Proof.
    destruct test as [t|]; cbn [training]; intros H; [apply filter_In in H as (H & _)|]; apply in_seq in H; lia.
  Qed.
End Gen.

Lemma col_obs_fin (D : arr2 xr) n d train j : finite_off D n d -> j < n -> (forall l, In l train -> l < n) ->
  col_obs (fill_diagonal D nnan) train j = map XFin (seen d train j).
Proof.
  intros (_ & _ & H) Hj Ht. unfold col_obs, nonnan, seen. cbn [at2 fill_diagonal].
  induction train as [|l tr IH]; [reflexivity|]. cbn [map filter].
  destruct (Nat.eqb_spec l j) as [->|E]; cbn [negb map filter].
  - change (nisnan (V:=xr) nnan) with true. cbn [negb]. apply IH. intros; apply Ht; now right.
  - rewrite H by (auto; apply Ht; now left). change (nisnan (XFin (d l j))) with false. cbn [negb map].
    f_equal. apply IH. intros; apply Ht; now right.
Qed.
(** with two training objects every column has an observation *)
Lemma seen_ne d train j : NoDup train -> 2 <= length train -> seen d train j <> [].
Proof.
  intros ND HL C. unfold seen in C. apply map_eq_nil in C.
  destruct train as [|a [|b tr]]; cbn in HL; try lia.
  inversion ND as [|? ? N1 _]; subst. cbn [filter] in C.
  destruct (Nat.eqb_spec a j) as [->|]; cbn [negb] in C; [|discriminate].
  destruct (Nat.eqb_spec b j) as [->|]; cbn [negb] in C; [|discriminate]. apply N1. now left.
Qed.
Lemma training_NoDup n test : NoDup (training n test).
Proof. destruct test; cbn [training]; [apply NoDup_filter|]; apply seq_NoDup. Qed.

Lemma tiny_xr : tiny (V:=xr) = XFin (/ 10000000).
Proof.
  unfold tiny. cbn. destruct (Req_EM_T 10000000 0); [lra|]. f_equal. lra.
Qed.
Lemma no_zero_std l : l <> [] -> no_zero (vstd xsum (map XFin l)) = XFin (spread l).
Proof.
  intros H. rewrite vstd_xr by exact H. unfold no_zero, spread. cbn [neq Num_xr n0 nofZ xeq].
  destruct (Req_EM_T (rstd l) 0); [apply tiny_xr|reflexivity].
Qed.
Lemma spread_pos l : (0 < spread l)%R.
Proof.
  unfold spread. destruct (Req_EM_T (rstd l) 0) as [E|E]; [lra|]. pose proof (rstd_nonneg l). lra.
Qed.

Lemma valid_cases metric : valid_metric metric = true ->
  metric = "distance"%string \/ metric = "similarity"%string.
Proof.
  unfold valid_metric. intros H. apply orb_true_iff in H as [H|H]; [left|right]; now apply String.eqb_eq.
Qed.

Section Gauss.
  Variables (Phi : R -> R) (cdf sf : xr -> xr -> xr -> xr).
  Hypothesis NF : normal_family Phi cdf sf.
  Variables (D : arr2 xr) (n : nat) (d : nat -> nat -> R).
  Hypothesis HD : finite_off D n d.
  Variable metric : string.

  Lemma gi_value_xr x mi si mj sj : (0 < si)%R -> (0 < sj)%R ->
    gi_value cdf sf metric (XFin x) (XFin mi) (XFin si) (XFin mj) (XFin sj)
    = XFin (mp_of (is_sim metric) (Phi ((x - mi) / si)) (Phi ((x - mj) / sj))).
  Proof.
    intros Hi Hj. destruct NF as (_ & F & _). unfold gi_value, mp_of.
    destruct (F x mi si Hi) as (C1 & S1), (F x mj sj Hj) as (C2 & S2).
    destruct (is_sim metric); rewrite ?C1, ?C2, ?S1, ?S2; cbn; unfold both_below, not_both_above; f_equal.
  Qed.
  Lemma mp_of_unit b p q : (0 <= p <= 1)%R -> (0 <= q <= 1)%R -> (0 <= mp_of b p q <= 1)%R.
  Proof.
    intros Hp Hq. unfold mp_of, both_below, not_both_above. destruct b; split; nra.
  Qed.

  Definition gval (train : list nat) (i j : nat) : R :=
    mp_of (is_sim metric)
      (Phi ((d i j - rmean (seen d train i)) / spread (seen d train i)))
      (Phi ((d i j - rmean (seen d train j)) / spread (seen d train j))).

  Lemma gaussi_core_at test i j : 2 <= length (training n test) -> i < n -> j < n ->
    at2 (gaussi_core xsum cdf sf metric (train_rows n test) D) i j
    = if i =? j then mp_self metric
      else XFin (if i <? j then gval (training n test) i j else gval (training n test) j i).
  Proof.
    intros HL Hi Hj. assert (HD' := HD). destruct HD' as (R & C & A).
    unfold gaussi_core. cbv zeta. rewrite R. rewrite mirror_at by assumption. rewrite train_rows_spec.
    destruct (Nat.eqb_spec i j) as [E|E]; [reflexivity|].
    assert (NE : forall k, seen d (training n test) k <> [])
      by (intros k; apply seen_ne; [apply training_NoDup|exact HL]).
    assert (O : forall k, k < n -> col_obs (fill_diagonal D nnan) (training n test) k
                = map XFin (seen d (training n test) k))
      by (intros k Hk; apply (col_obs_fin D n); auto; apply training_lt).
    rewrite !O by assumption. rewrite !vmean_xr, !no_zero_std by apply NE.
    cbn [at2 fill_diagonal]. rewrite (Nat.eqb_sym j i). destruct (Nat.eqb_spec i j) as [E2|_]; [congruence|].
    rewrite !A by congruence. rewrite !gi_value_xr by apply spread_pos.
    destruct (i <? j); cbn; f_equal; unfold gval; ring.
  Qed.
  Lemma gval_unit train i j : (0 <= gval train i j <= 1)%R.
  Proof. destruct NF as (U & _). apply mp_of_unit; apply U. Qed.

  Lemma gaussi_ok test : valid_metric metric = true ->
    gaussi xsum cdf sf D metric 0 test None = Ok (gaussi_core xsum cdf sf metric (train_rows n test) D).
  Proof.
    intros Hv. destruct HD as (R & C & _). unfold gaussi. rewrite R, C.
    rewrite (check_square n n eq_refl).
    destruct (valid_cases metric Hv) as [-> | ->]; reflexivity.
  Qed.
End Gauss.
