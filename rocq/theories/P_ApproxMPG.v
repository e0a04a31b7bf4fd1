(** Lemmas about Gaussian mutual proximity with fixed vantage points. *)
From Coq Require Import String.
From Coq Require Import ZArith List Arith Lia Bool Permutation Reals Lra.
From Verif Require Import Py Num NumT Arr Sort S_Neighbors S_Approx M_Hubness M_SNN M_LS M_Dist M_HubnessClass M_Approx.
From Verif Require Import P_NICDM P_ApproxFixed.
Import ListNotations.
Local Open Scope R_scope.

Lemma INR_pos n : (0 < n)%nat -> 0 < INR n. Proof. apply lt_0_INR. Qed.

Lemma vmean_xr l : l <> [] -> vmean_ xsum (map XFin l) = XFin (rmean l).
Proof.
  intros H. unfold vmean_. rewrite xsum_fin, map_length. unfold rmean.
  assert (P : INR (length l) <> 0) by (apply not_0_INR; destruct l; [congruence|discriminate]).
  unfold nofnat. cbn [nofZ ndiv Num_xr]. rewrite <- INR_IZR_INZ. cbn.
  destruct (Req_EM_T (INR (length l)) 0); [contradiction|reflexivity].
Qed.
Lemma rmean_nonneg l : (forall x, In x l -> 0 <= x) -> 0 <= rmean l.
Proof.
  intros H. unfold rmean. destruct l as [|x l]; [cbn; unfold Rdiv; lra|].
  apply Rmult_le_pos; [apply rsum_nonneg; exact H|]. left. apply Rinv_0_lt_compat. apply INR_pos. cbn; lia.
Qed.
Lemma vstd_xr l : l <> [] -> vstd xsum (map XFin l) = XFin (rstd l).
Proof.
  intros H. unfold vstd. rewrite vmean_xr by exact H.
  assert (E : map (fun x => nmul (nsub x (XFin (rmean l))) (nsub x (XFin (rmean l)))) (map XFin l)
            = map XFin (map (fun x => (x - rmean l) * (x - rmean l)) l)).
  { rewrite !map_map. apply map_ext. intros x. reflexivity. }
  rewrite E, vmean_xr by (destruct l; [congruence|discriminate]).
  unfold rstd.
  assert (P : 0 <= rmean (map (fun x => (x - rmean l) * (x - rmean l)) l)).
  { apply rmean_nonneg. intros x Hx. apply in_map_iff in Hx as (y & <- & _). apply Rle_0_sqr. }
  change (xsqrt (XFin (rmean (map (fun x => (x - rmean l) * (x - rmean l)) l))) = XFin (sqrt (rmean (map (fun x => (x - rmean l) * (x - rmean l)) l)))).
  unfold xsqrt. match goal with |- context [if ?c then _ else _] => destruct c end; [lra|reflexivity].
Qed.
Lemma nonnan_fin l : nonnan (map XFin l) = map XFin l.
Proof. unfold nonnan. induction l as [|x l IH]; [reflexivity|]. cbn in *. now rewrite IH. Qed.

Section MPG.
  Variables (sdist : string -> nat -> (nat -> xr) -> (nat -> xr) -> xr) (metric : string).

  (** columns without the self distance, rows with a zero self distance *)
  Lemma mpg_moments_none (Xt : arr2 xr) d :
    (forall i j, (i < nrow Xt)%nat -> (j < nrow Xt)%nat -> sdist metric (ncol Xt) (at2 Xt i) (at2 Xt j) = XFin (d i j)) ->
    (2 <= nrow Xt)%nat ->
    mpg_moments xsum sdist metric SNone Xt
    = (map (fun j => XFin (rmean (map (fun i => d i j) (but j (nrow Xt))))) (seq 0 (nrow Xt)),
       map (fun j => XFin (rstd (map (fun i => d i j) (but j (nrow Xt))))) (seq 0 (nrow Xt))).
  Proof.
    intros Hd Hn. unfold mpg_moments. cbn [sampled]. rewrite !map_map.
    assert (E : forall j, (j < nrow Xt)%nat -> nonnan (coll (fill_diagonal (self_dists sdist metric Xt) nnan) j)
                = map XFin (map (fun i => d i j) (but j (nrow Xt)))).
    { intros j Hj. unfold coll, nonnan, but. cbn [nrow self_dists fill_diagonal at2].
      assert (G : forall l, (forall i, In i l -> (i < nrow Xt)%nat) ->
        filter (fun x : xr => negb (nisnan x)) (map (fun i => if (i =? j)%nat then nnan else if (i =? j)%nat then n0 else sdist metric (ncol Xt) (at2 Xt i) (at2 Xt j)) l)
        = map XFin (map (fun i => d i j) (filter (fun i => negb (i =? j)%nat) l))).
      { induction l as [|i l IH]; intros Hl; [reflexivity|]. cbn [map filter].
        destruct (Nat.eqb_spec i j) as [->|Hne]; cbn [negb map filter].
        - change (nisnan (V:=xr) nnan) with true. cbn [negb]. apply IH. intros; apply Hl; now right.
        - rewrite Hd by (auto; apply Hl; now left). cbn [nisnan Num_xr]. change (xisnan (XFin (d i j))) with false. cbn [negb map].
          f_equal. apply IH. intros; apply Hl; now right. }
      apply G. intros i Hi. apply in_seq in Hi. lia. }
    assert (NE : forall j, (j < nrow Xt)%nat -> map (fun i => d i j) (but j (nrow Xt)) <> []).
    { intros j Hj C. apply map_eq_nil in C.
      assert (I : In (if (j =? 0)%nat then 1%nat else 0%nat) (but j (nrow Xt))).
      { unfold but. apply filter_In. split; [apply in_seq|]; destruct (Nat.eqb_spec j 0) as [->|H]; try lia; try reflexivity.
        destruct j; [lia|reflexivity]. }
      rewrite C in I. contradiction. }
    f_equal; apply map_ext_in; intros j Hj; apply in_seq in Hj; rewrite E by lia; [apply vmean_xr|apply vstd_xr]; apply NE; lia.
  Qed.
  Lemma mpg_moments_sampled (Xt : arr2 xr) d s : sampled s = true ->
    (forall i j, (i < nrow Xt)%nat -> (j < nrow Xt)%nat -> sdist metric (ncol Xt) (at2 Xt i) (at2 Xt j) = XFin (d i j)) ->
    (1 <= nrow Xt)%nat ->
    mpg_moments xsum sdist metric s Xt
    = (map (fun j => XFin (rmean (map (fun i => if (i =? j)%nat then 0 else d j i) (seq 0 (nrow Xt))))) (seq 0 (nrow Xt)),
       map (fun j => XFin (rstd (map (fun i => if (i =? j)%nat then 0 else d j i) (seq 0 (nrow Xt))))) (seq 0 (nrow Xt))).
  Proof.
    intros Hs Hd Hn. unfold mpg_moments. rewrite Hs.
    assert (E : forall j, (j < nrow Xt)%nat -> rowl (fill_diagonal (fill_diagonal (self_dists sdist metric Xt) nnan) n0) j
                = map XFin (map (fun i => if (i =? j)%nat then 0 else d j i) (seq 0 (nrow Xt)))).
    { intros j Hj. unfold rowl. cbn [ncol self_dists fill_diagonal]. rewrite map_map. apply map_ext_in. intros i Hi. apply in_seq in Hi.
      cbn [at2 fill_diagonal self_dists]. rewrite (Nat.eqb_sym j i). destruct (i =? j)%nat; [reflexivity|]. apply Hd; lia. }
    assert (NE : forall j, map (fun i => if (i =? j)%nat then 0 else d j i) (seq 0 (nrow Xt)) <> []).
    { intros j C. apply map_eq_nil in C. destruct (nrow Xt); [lia|discriminate]. }
    f_equal; apply map_ext_in; intros j Hj; apply in_seq in Hj; rewrite E by lia; [apply vmean_xr|apply vstd_xr]; apply NE.
  Qed.
End MPG.

(** sums over all indices but one *)
Lemma rsum_but (f : nat -> R) j s : (j < s)%nat ->
  rsum (map (fun i => if (i =? j)%nat then 0 else f i) (seq 0 s)) = rsum (map f (but j s)).
Proof.
  intros Hj. unfold but. generalize (seq 0 s). induction l as [|i l IH]; [reflexivity|]. cbn [map filter].
  destruct (i =? j)%nat; cbn [negb map rsum fold_right]; change (fold_right Rplus 0) with rsum; rewrite IH; lra.
Qed.
Lemma but_length j s : (j < s)%nat -> length (but j s) = (s - 1)%nat.
Proof.
  intros Hj. unfold but. rewrite <- count_if_filter. pose proof (count_if_neg (fun l => (l =? j)%nat) s) as G.
  rewrite (count_if_eq1 s j Hj) in G. lia.
Qed.

(** mean of squares minus square of the mean *)
Lemma var_eq l : l <> [] -> rmean (map (fun x => (x - rmean l) * (x - rmean l)) l) = rmean (map (fun x => x * x) l) - rmean l * rmean l.
Proof.
  intros H. assert (P : INR (length l) <> 0) by (apply not_0_INR; destruct l; [congruence|discriminate]).
  unfold rmean at 1 4. rewrite !map_length.
  assert (G : forall m k, rsum (map (fun x => (x - m) * (x - m)) k) = rsum (map (fun x => x * x) k) - 2 * m * rsum k + m * m * INR (length k)).
  { intros m. induction k as [|x k IH]; [cbn; lra|]. cbn [map rsum fold_right length]. change (fold_right Rplus 0) with rsum. rewrite S_INR, IH. lra. }
  rewrite G. unfold rmean. field. exact P.
Qed.
Lemma rstd_sq l : l <> [] -> rstd l * rstd l = rmean (map (fun x => x * x) l) - rmean l * rmean l.
Proof.
  intros H. unfold rstd. rewrite sqrt_sqrt; [now apply var_eq|]. apply rmean_nonneg. intros x Hx. apply in_map_iff in Hx as (y & <- & _). apply Rle_0_sqr.
Qed.
Lemma rstd_nonneg l : 0 <= rstd l.
Proof. apply sqrt_pos. Qed.

(** a zero among the values *)
Lemma mean_with_zero (f : nat -> R) j s : (j < s)%nat -> (2 <= s)%nat ->
  rmean (map (fun i => if (i =? j)%nat then 0 else f i) (seq 0 s)) = INR (s - 1) / INR s * rmean (map f (but j s)).
Proof.
  intros Hj Hs. unfold rmean. rewrite rsum_but, !map_length, seq_length, but_length by exact Hj.
  field. split; apply not_0_INR; lia.
Qed.
Lemma std_with_zero (f : nat -> R) j s : (j < s)%nat -> (2 <= s)%nat ->
  let a := map (fun i => if (i =? j)%nat then 0 else f i) (seq 0 s) in
  let b := map f (but j s) in
  rstd a * rstd a = INR (s - 1) / INR s * (rstd b * rstd b) + INR (s - 1) / (INR s * INR s) * (rmean b * rmean b).
Proof.
  intros Hj Hs a b.
  assert (Ha : a <> []) by (unfold a; destruct s; [lia|discriminate]).
  assert (Hb : b <> []).
  { unfold b. intros C. apply map_eq_nil in C. assert (L := but_length j s Hj). rewrite C in L. cbn in L. lia. }
  rewrite !rstd_sq by assumption.
  assert (E2 : rmean (map (fun x => x * x) a) = INR (s - 1) / INR s * rmean (map (fun x => x * x) b)).
  { unfold a, b. rewrite !map_map. rewrite <- (mean_with_zero (fun i => f i * f i) j s Hj Hs). f_equal. apply map_ext. intros i. destruct (i =? j)%nat; lra. }
  rewrite E2. unfold a. rewrite (mean_with_zero f j s Hj Hs). fold b.
  rewrite minus_INR by lia. cbn [INR]. field. apply not_0_INR. lia.
Qed.
