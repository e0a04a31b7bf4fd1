(** Property C69: approximate Gaussian mutual proximity with fixed vantage
    points, exact arithmetic.  [dx i l]: distance of query i to vantage point l,
    [dv j l]: between vantage points, all finite. *)
From Coq Require Import String.
From Coq Require Import ZArith List Arith Lia Bool Permutation Reals Lra.
From Verif Require Import Py Num NumT Arr Sort S_Neighbors S_Approx M_Approx.
From Verif Require Import P_ApproxFixed P_ApproxMPG.
Import ListNotations.
Local Open Scope nat_scope.

Definition distances_are (sdist : string -> nat -> (nat -> xr) -> (nat -> xr) -> xr) metric (Xall X : arr2 xr)
    (v : list nat) (dx dv : nat -> nat -> R) : Prop :=
  (forall i l, i < nrow X -> l < length v -> sdist metric (ncol X) (at2 X i) (at2 Xall (nth l v 0)) = XFin (dx i l)) /\
  (forall j l, j < length v -> l < length v ->
     sdist metric (ncol Xall) (at2 Xall (nth j v 0)) (at2 Xall (nth l v 0)) = XFin (dv j l)).

(** Each entry is one minus the product of two survival probabilities of the
    distance, one for the query and one for the vantage point. The moments of
    the query are those of its distances to all vantage points.  Those of the
    vantage point j are taken over the other vantage points without sampling,
    and over all vantage points with a zero for j itself with sampling. *)
Theorem C69_value :
  forall sf sdist metric s ns (Xall X R : arr2 xr) dx dv,
    let v := vantage s (nrow Xall) in
    mpg_fixed xsum sdist sf metric s ns Xall X = Ok R ->
    distances_are sdist metric Xall X v dx dv -> 2 <= length v ->
    nrow R = nrow X /\ ncol R = length v /\
    forall i j, i < nrow X -> j < length v ->
      let row := map (dx i) (seq 0 (length v)) in
      let vals := if sampled s then map (fun l => if l =? j then 0%R else dv j l) (seq 0 (length v))
                  else map (fun l => dv l j) (but j (length v)) in
      at2 R i j = nsub n1 (nmul (sf (XFin (dx i j)) (XFin (rmean row)) (XFin (rstd row)))
                                (sf (XFin (dx i j)) (XFin (rmean vals)) (XFin (rstd vals)))).
Proof.
  intros sf sdist metric s ns Xall X R dx dv v H (Hx & Hv) Hn. unfold mpg_fixed in H.
  destruct (fit_check Xall); [|discriminate]. cbn [bind] in H.
  destruct (sampling_check s (nrow Xall) ns); [|discriminate]. cbn [bind] in H.
  destruct (guard _ _); [|discriminate]. cbn [bind] in H. fold v in H. clearbody v.
  assert (HM : mpg_moments xsum sdist metric s (rows_at Xall v) =
    (map (fun j => XFin (rmean (if sampled s then map (fun l => if l =? j then 0%R else dv j l) (seq 0 (length v)) else map (fun l => dv l j) (but j (length v))))) (seq 0 (length v)),
     map (fun j => XFin (rstd (if sampled s then map (fun l => if l =? j then 0%R else dv j l) (seq 0 (length v)) else map (fun l => dv l j) (but j (length v))))) (seq 0 (length v)))).
  { destruct (sampled s) eqn:Es.
    - apply (mpg_moments_sampled sdist metric (rows_at Xall v) dv s Es); [|cbn; lia]. intros i j. apply Hv.
    - destruct s; try discriminate. apply (mpg_moments_none sdist metric (rows_at Xall v) dv); [|cbn; lia]. intros i j. apply Hv. }
  rewrite HM in H. destruct (trans_check X (rows_at Xall v)); [|discriminate]. cbn [bind] in H. injection H as <-.
  split; [reflexivity|]. split; [reflexivity|]. intros i j Hi Hj row vals. cbn [at2].
  assert (ER : rowl (cross_dists sdist metric X (rows_at Xall v)) i = map XFin row).
  { unfold rowl, row. cbn [ncol cross_dists rows_at]. rewrite map_map. apply map_ext_in. intros l Hl. apply in_seq in Hl. cbn. apply Hx; lia. }
  rewrite ER. unfold mpg_row. cbv zeta. rewrite nonnan_fin.
  assert (NE : row <> []) by (unfold row; destruct (length v); [lia|discriminate]).
  rewrite vmean_xr, vstd_xr by exact NE.
  rewrite nth_map_seq by (unfold row; rewrite !map_length, seq_length; exact Hj).
  rewrite !nth_map_seq by exact Hj.
  assert (ED : nth j (map XFin row) nnan = XFin (dx i j)).
  { unfold row. rewrite map_map, nth_map_seq by exact Hj. reflexivity. }
  rewrite ED. reflexivity.
Qed.

(** DEFECT: compared with the moments over the other vantage points, sampling
    shrinks the mean by (s-1)/s and changes the variance by the zero. *)
Theorem C69_bias :
  forall (dv : nat -> nat -> R) j s, j < s -> 2 <= s -> (forall a b, dv a b = dv b a) ->
    let with_self := map (fun l => if l =? j then 0%R else dv j l) (seq 0 s) in
    let without_self := map (fun l => dv l j) (but j s) in
    (rmean with_self = INR (s - 1) / INR s * rmean without_self)%R /\
    (rstd with_self ^ 2 = INR (s - 1) / INR s * rstd without_self ^ 2 + INR (s - 1) / INR s ^ 2 * rmean without_self ^ 2)%R.
Proof.
  intros dv j s Hj Hs Hsym a b.
  assert (Eb : b = map (dv j) (but j s)) by (unfold b; apply map_ext; intros; apply Hsym).
  rewrite Eb. split; [now apply mean_with_zero|].
  pose proof (std_with_zero (dv j) j s Hj Hs) as E. cbv zeta in E. fold a in E.
  cbn [pow]. rewrite !Rmult_1_r. exact E.
Qed.
(** All other vantage points at the same distance 1: the standard deviation
    should be 0 and the mean 1; with sampling it is positive and the mean is
    smaller, for every number of vantage points. *)
Theorem C69_bias_witness :
  forall j s, j < s -> 2 <= s ->
    let with_self := map (fun l => if l =? j then 0%R else 1%R) (seq 0 s) in
    let without_self := map (fun _ => 1%R) (but j s) in
    (rmean without_self = 1 /\ rmean with_self < 1 /\ rstd without_self = 0 /\ 0 < rstd with_self)%R.
Proof.
  intros j s Hj Hs a b.
  assert (P : (0 < INR s)%R) by (apply lt_0_INR; lia).
  assert (Q : (0 < INR (s - 1))%R) by (apply lt_0_INR; lia).
  assert (EI : INR (s - 1) = (INR s - 1)%R) by (rewrite minus_INR by lia; reflexivity).
  assert (M : rmean b = 1%R).
  { unfold b, rmean. rewrite map_length, but_length by exact Hj. rewrite rsum_const, but_length by exact Hj. field. lra. }
  assert (SB : rstd b = 0%R).
  { unfold rstd. rewrite M. replace (map (fun x : R => ((x - 1) * (x - 1))%R) b) with (map (fun _ : nat => 0%R) (but j s)).
    - unfold rmean. rewrite rsum_const. unfold Rdiv. rewrite Rmult_0_r, Rmult_0_l. apply sqrt_0.
    - unfold b. rewrite map_map. apply map_ext. intros. lra. }
  destruct (C69_bias (fun _ _ => 1%R) j s Hj Hs) as (E1 & E2); [reflexivity|]. cbv zeta in E1, E2.
  change (map (fun l => if l =? j then 0%R else 1%R) (seq 0 s)) with a in E1, E2. change (map (fun _ : nat => 1%R) (but j s)) with b in E1, E2.
  rewrite M in E1, E2. rewrite SB in E2. split; [exact M|]. split; [|split; [exact SB|]].
  - rewrite E1, EI. apply (Rmult_lt_reg_r (INR s)); [exact P|]. field_simplify; lra.
  - destruct (Rle_lt_or_eq_dec 0 (rstd a) (rstd_nonneg a)) as [H|H]; [exact H|exfalso].
    rewrite <- H in E2. assert (K : (0 < INR (s - 1) / INR s ^ 2)%R).
    { apply Rmult_lt_0_compat; [exact Q|]. apply Rinv_0_lt_compat. apply pow_lt. exact P. }
    cbn [pow] in E2, K. lra.
Qed.

(** Values are in [0, 1] when the standard deviations involved are positive, and
    NaN when the query is equally far from all vantage points. *)
Theorem C69_range :
  forall sf sdist metric s ns (Xall X R : arr2 xr) dx dv i j,
    let v := vantage s (nrow Xall) in
    sf_contract sf -> mpg_fixed xsum sdist sf metric s ns Xall X = Ok R ->
    distances_are sdist metric Xall X v dx dv -> 2 <= length v -> i < nrow X -> j < length v ->
    let vals := if sampled s then map (fun l => if l =? j then 0%R else dv j l) (seq 0 (length v))
                else map (fun l => dv l j) (but j (length v)) in
    (0 < rstd (map (dx i) (seq 0 (length v))))%R -> (0 < rstd vals)%R ->
    exists r, at2 R i j = XFin r /\ (0 <= r <= 1)%R.
Proof.
  intros sf sdist metric s ns Xall X R dx dv i j v (S1 & _) H Hd Hn Hi Hj vals P1 P2.
  destruct (C69_value sf sdist metric s ns Xall X R dx dv H Hd Hn) as (_ & _ & C). rewrite (C i j Hi Hj). fold v. fold vals.
  destruct (S1 (dx i j) (rmean (map (dx i) (seq 0 (length v)))) _ P1) as (p & -> & B1).
  destruct (S1 (dx i j) (rmean vals) _ P2) as (q & -> & B2).
  exists (1 - p * q)%R. split; [reflexivity|]. nra.
Qed.
Theorem C69_nan :
  forall sf sdist metric s ns (Xall X R : arr2 xr) dx dv i j c,
    let v := vantage s (nrow Xall) in
    sf_contract sf -> mpg_fixed xsum sdist sf metric s ns Xall X = Ok R ->
    distances_are sdist metric Xall X v dx dv -> 2 <= length v -> i < nrow X -> j < length v ->
    (forall l, l < length v -> dx i l = c) -> at2 R i j = XNaN.
Proof.
  intros sf sdist metric s ns Xall X R dx dv i j c v (_ & S0) H Hd Hn Hi Hj Hc.
  destruct (C69_value sf sdist metric s ns Xall X R dx dv H Hd Hn) as (_ & _ & C). rewrite (C i j Hi Hj). fold v.
  assert (E : map (dx i) (seq 0 (length v)) = map (fun _ => c) (seq 0 (length v))).
  { apply map_ext_in. intros l Hl. apply in_seq in Hl. apply Hc. lia. }
  rewrite E.
  assert (M : rmean (map (fun _ : nat => c) (seq 0 (length v))) = c).
  { unfold rmean. rewrite rsum_const, map_length, seq_length. field. apply not_0_INR. lia. }
  assert (Z : rstd (map (fun _ : nat => c) (seq 0 (length v))) = 0%R).
  { unfold rstd. rewrite M, map_map. unfold rmean. rewrite (map_ext _ (fun _ => 0%R)) by (intros; lra).
    rewrite rsum_const. unfold Rdiv. rewrite Rmult_0_r, Rmult_0_l. apply sqrt_0. }
  rewrite Z, S0. reflexivity.
Qed.

(** the hypotheses are met: three objects, the step function as survival
    function *)
Definition step_sf (x m s : xr) : xr :=
  match x, m, s with
  | XFin x, XFin m, XFin s => if Rlt_dec 0 s then if Rle_dec x m then XFin 1 else XFin 0 else XNaN
  | _, _, _ => XNaN
  end.
Example ex_C69 :
  let X := Arr2 3 1 (fun i _ => XFin (INR i)) in
  let sd (_ : string) (_ : nat) (u w : nat -> xr) :=
    match u 0, w 0 with XFin a, XFin b => XFin ((a - b) * (a - b)) | _, _ => XNaN end in
  let d i l := ((INR i - INR l) * (INR i - INR l))%R in
  sf_contract step_sf /\
  (exists R, mpg_fixed xsum sd step_sf "cosine" SNone 0 X X = Ok R) /\
  distances_are sd "cosine" X X (vantage SNone 3) d d /\
  (0 < rstd (map (d 0%nat) (seq 0 3)))%R.
Proof.
  intros X sd d. split; [|split; [|split]].
  - split.
    + intros x m s Hs. unfold step_sf. destruct (Rlt_dec 0 s); [|contradiction]. destruct (Rle_dec x m); eexists; (split; [reflexivity|lra]).
    + intros x m. unfold step_sf. destruct (Rlt_dec 0 0); [lra|reflexivity].
  - eexists. unfold mpg_fixed. cbn. reflexivity.
  - split; intros i l Hi Hl; cbn [vantage length seq nrow X] in Hi, Hl; unfold sd; cbn [at2 X vantage];
      rewrite ?seq_nth by lia; reflexivity.
  - unfold rstd. apply sqrt_lt_R0. unfold d, rmean. cbn. lra.
Qed.

Print Assumptions C69_value.
Print Assumptions C69_bias.
Print Assumptions C69_bias_witness.
Print Assumptions C69_range.
Print Assumptions C69_nan.
