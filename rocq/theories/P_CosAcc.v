(** Proofs about the accuracy of cosine distances in float64. *)
From Coq Require Import ZArith Reals Lra List Arith Lia Bool.
From Flocq Require Import Core BinarySingleNaN.
From Verif Require Import Py Num NumT Arr S_Centering M_Dist P_F64 P_LSFloat P_LSAcc S_NicdmAcc P_NicdmAcc P_Vec.
Import ListNotations.
Local Open Scope nat_scope.
Local Open Scope R_scope.

(** x is y up to a factor near 1 *)
Definition rclose (e x y : R) : Prop := exists w, x = y * w /\ lclose e w 1.

Lemma rclose_abs e x y : rclose e x y -> 0 <= e <= / 100 -> Rabs (x - y) <= 1.02 * e * Rabs y.
Proof.
  intros (w & -> & L) He. replace (y * w - y) with (y * (w - 1)) by ring. rewrite Rabs_mult, Rmult_comm.
  apply Rmult_le_compat_r; [apply Rabs_pos|]. pose proof (lclose_abs _ _ _ L He). lra.
Qed.
Lemma rclose_mul a b x y x' y' : rclose a x y -> rclose b x' y' -> rclose (a + b) (x * x') (y * y').
Proof.
  intros (w & -> & L) (w' & -> & L'). exists (w * w'). split; [ring|]. replace 1 with (1 * 1) by ring. now apply lclose_mul.
Qed.
Lemma rclose_div a b x y x' y' : rclose a x y -> lclose b x' y' -> rclose (a + b) (x / x') (y / y').
Proof.
  intros (w & -> & L) L'. pose proof (lclose_pos _ _ _ L') as P. pose proof (proj1 L') as P'.
  exists (w * (y' / x')). split; [field; lra|]. replace 1 with (1 * (x' / x')) by (field; lra). apply lclose_mul; [exact L|].
  replace b with (b + 0) by ring. apply lclose_div; [|now apply lclose_refl].
  apply lclose_iff in L' as (A1 & A2 & A3). apply lclose_iff. split; [exact A2|]. split; [exact A1|]. rewrite Rabs_minus_sym. exact A3.
Qed.
Lemma rclose_trans a b x y z : rclose a x y -> rclose b y z -> rclose (a + b) x z.
Proof.
  intros (w & -> & L) (w' & -> & L'). exists (w' * w). split; [ring|]. replace 1 with (1 * 1) by ring. rewrite Rplus_comm. now apply lclose_mul.
Qed.
Lemma rclose_refl x : rclose 0 x x.
Proof. exists 1. split; [ring|apply lclose_refl; lra]. Qed.
Lemma rclose_weak a b x y : a <= b -> rclose a x y -> rclose b x y.
Proof. intros H (w & E & L). exists w. split; [exact E|now apply lclose_weak with a]. Qed.

(** zero or of moderate size *)
Definition mid (lo hi : Z) (x : R) : Prop := x = 0 \/ bpow radix2 lo <= Rabs x <= bpow radix2 hi.

Lemma mid_mul a b c d x y : mid a b x -> mid c d y -> mid (a + c) (b + d) (x * y).
Proof.
  intros [->|H]; [left; ring|]. intros [->|H']; [left; ring|]. right. rewrite Rabs_mult, !bpow_plus.
  pose proof (bpow_gt_0 radix2 a). pose proof (bpow_gt_0 radix2 c). split; apply Rmult_le_compat; try lra; apply Rabs_pos.
Qed.
Lemma mid_weak a b a' b' x : (a' <= a)%Z -> (b <= b')%Z -> mid a b x -> mid a' b' x.
Proof.
  intros Ha Hb [->|H]; [now left|right]. split.
  - apply Rle_trans with (2 := proj1 H). now apply bpow_le.
  - apply Rle_trans with (1 := proj2 H). now apply bpow_le.
Qed.
Lemma mid_div a b c d x y : mid a b x -> bpow radix2 c <= y <= bpow radix2 d -> mid (a - d) (b - c) (x / y).
Proof.
  intros H B. unfold Rdiv. pose proof (bpow_gt_0 radix2 c). apply (mid_mul a b (- d) (- c)); [exact H|]. right.
  rewrite Rabs_pos_eq by (left; apply Rinv_0_lt_compat; lra). rewrite !bpow_opp. split; apply Rinv_le; lra.
Qed.
Lemma mid_rclose e a b x y : rclose e x y -> mid a b y -> 0 <= e <= / 100 -> mid (a - 1) (b + 1) x.
Proof.
  intros (w & -> & L) [->|H] He; [left; ring|right]. pose proof (lclose_abs _ _ _ L He) as A. apply Rabs_le_inv in A.
  rewrite Rabs_mult, (Rabs_pos_eq w) by lra. unfold Z.sub. rewrite !bpow_plus. change (bpow radix2 (- (1))) with (/ 2). change (bpow radix2 1) with 2.
  pose proof (bpow_gt_0 radix2 a). split; nra.
Qed.

Lemma rnd_rclose y : mid (-1022) 1000 y -> rclose (2 * u53) (rnd y) y /\ Rabs (rnd y) < bpow radix2 1024.
Proof.
  pose proof u53_pos as Pu. intros [->|H].
  - rewrite rnd_0. split; [apply rclose_weak with 0; [lra|apply rclose_refl]|rewrite Rabs_R0; apply bpow_gt_0].
  - destruct (rnd_norm y (proj1 H)) as (e & He & E).
    assert (L : lclose (2 * u53) (1 + e) 1).
    { apply lclose_rel; [lra|lra|]. replace (1 + e - 1) with e by ring. lra. }
    split; [exists (1 + e); split; [exact E|exact L]|]. rewrite E, Rabs_mult. apply Rabs_le_inv in He. rewrite (Rabs_pos_eq (1 + e)) by lra.
    apply Rle_lt_trans with (bpow radix2 1000 * bpow radix2 1); [|rewrite <- bpow_plus; apply bpow_lt; lia].
    change (bpow radix2 1) with 2. apply Rmult_le_compat; try lra. apply Rabs_pos.
Qed.

Lemma mulr (x y : f64) : is_finite x = true -> is_finite y = true -> mid (-1022) 1000 (B2R x * B2R y) ->
  is_finite (nmul x y) = true /\ rclose (2 * u53) (B2R (nmul x y)) (B2R x * B2R y).
Proof.
  intros Fx Fy M. destruct (rnd_rclose _ M) as (C & B). destruct (mul_cases x y Fx Fy) as (_ & [(_ & F & R)|(B' & _)]).
  - split; [exact F|]. rewrite R. exact C.
  - lra.
Qed.
Lemma divr (x y : f64) : is_finite x = true -> B2R y <> 0 -> mid (-1022) 1000 (B2R x / B2R y) ->
  is_finite (ndiv x y) = true /\ rclose (2 * u53) (B2R (ndiv x y)) (B2R x / B2R y).
Proof.
  intros Fx Hy M. destruct (rnd_rclose _ M) as (C & B). destruct (div_cases x y Fx Hy) as (_ & [(_ & F & R)|(B' & _)]).
  - split; [exact F|]. rewrite R. exact C.
  - lra.
Qed.

Lemma total_mult c (l : list R) : total (map (fun x => c * x) l) = c * total l.
Proof. induction l as [|a l IH]; cbn; [ring|]. fold (total l) (total (map (fun x => c * x) l)). rewrite IH. ring. Qed.

Lemma entry_le_norm m (zv : nat -> R) f : 0 < normR m zv -> (f < m)%nat -> Rabs (zv f / normR m zv) <= 1.
Proof.
  intros P Hf. unfold Rdiv. rewrite Rabs_mult, Rabs_inv, (Rabs_pos_eq (normR m zv)) by lra.
  apply Rmult_le_reg_r with (normR m zv); [exact P|]. rewrite Rmult_assoc, Rinv_l, Rmult_1_r, Rmult_1_l by lra.
  apply Rsqr_incr_0_var; [|lra]. rewrite <- Rsqr_abs. unfold Rsqr. rewrite normR_sq. unfold dotR.
  assert (G : forall l, In f l -> zv f * zv f <= rsum (map (fun f => zv f * zv f) l)).
  { assert (P0 : forall l, 0 <= rsum (map (fun f => zv f * zv f) l)).
    { intros l. apply rsum_nonneg. intros w Hw. apply in_map_iff in Hw as (g & <- & _). nra. }
    induction l as [|a l IH]; [intros []|]. cbn. fold (rsum (map (fun f => zv f * zv f) l)). intros [->|Hl].
    - pose proof (P0 l). lra.
    - pose proof (IH Hl). nra. }
  apply G. apply in_seq. lia.
Qed.

Section Cos.
  Variables (eps : R) (m : nat) (vsum : list f64 -> f64).
  Hypothesis He : u53 <= eps <= bpow radix2 (-20).
  Hypothesis Hs : sum_close eps m vsum.
  Hypothesis Hm : (Z.of_nat m <= 2 ^ 53)%Z.

  Lemma ceps : 0 < u53 /\ u53 <= eps /\ eps <= / 1000000.
  Proof.
    split; [apply u53_pos|]. split; [apply He|]. apply Rle_trans with (1 := proj2 He).
    change (bpow radix2 (-20)) with (/ IZR (2 ^ 20)). apply Rinv_le; [lra|apply IZR_le; lia].
  Qed.

  (** the sum of computed terms *)
  Lemma dot64 (p : nat -> f64) (r : nat -> R) c :
    (forall f, (f < m)%nat -> is_finite (p f) = true /\ rclose (c * eps) (B2R (p f)) (r f) /\ Rabs (r f) <= bpow radix2 299) ->
    0 <= c <= 30 ->
    is_finite (vsum (map p (seq 0 m))) = true /\
    Rabs (B2R (vsum (map p (seq 0 m))) - total (map r (seq 0 m))) <= (1.02 * c + 1.01) * eps * total (map (fun f => Rabs (r f)) (seq 0 m)).
  Proof.
    intros H Hc. pose proof ceps as (Pu & Ue & E6). assert (CE : 0 <= c * eps <= / 100) by nra.
    destruct (Hs (map p (seq 0 m))) as (F & A).
    - rewrite map_length, seq_length. apply le_n.
    - intros x Hx. apply in_map_iff in Hx as (f & <- & Hf). apply in_seq in Hf. destruct (H f ltac:(lia)) as (Ff & C & B). split; [exact Ff|].
      pose proof (rclose_abs _ _ _ C CE) as D. change 300%Z with (1 + 299)%Z. rewrite bpow_plus. change (bpow radix2 1) with 2.
      replace (B2R (p f)) with ((B2R (p f) - r f) + r f) by ring. eapply Rle_trans; [apply Rabs_triang|]. pose proof (Rabs_pos (r f)).
      assert (1.02 * (c * eps) * Rabs (r f) <= 1 * Rabs (r f)) by (apply Rmult_le_compat_r; lra). lra.
    - split; [exact F|]. rewrite !map_map in A. set (l := seq 0 m) in *.
      assert (T1 : Rabs (total (map (fun f => B2R (p f)) l) - total (map r l)) <= 1.02 * (c * eps) * total (map (fun f => Rabs (r f)) l)).
      { eapply Rle_trans; [apply total_abs|]. rewrite <- total_mult, map_map. apply total_le. intros f Hf. apply in_seq in Hf.
        destruct (H f ltac:(lia)) as (_ & C & _). exact (rclose_abs _ _ _ C CE). }
      assert (T2 : total (map (fun f => Rabs (B2R (p f))) l) <= 1.001 * total (map (fun f => Rabs (r f)) l)).
      { rewrite <- total_mult, map_map. apply total_le. intros f Hf. apply in_seq in Hf. destruct (H f ltac:(lia)) as (_ & C & _).
        pose proof (rclose_abs _ _ _ C CE) as D. replace (B2R (p f)) with ((B2R (p f) - r f) + r f) by ring. eapply Rle_trans; [apply Rabs_triang|].
        pose proof (Rabs_pos (r f)). assert (1.02 * (c * eps) * Rabs (r f) <= / 1000 * Rabs (r f)) by (apply Rmult_le_compat_r; nra). lra. }
      assert (P0 : 0 <= total (map (fun f => Rabs (r f)) l)).
      { eapply Rle_trans; [|apply (total_le (fun _ => 0))]; [rewrite total_const; lra|intros; apply Rabs_pos]. }
      set (T := total (map (fun f => Rabs (r f)) l)) in *.
      assert (T3 : eps * total (map (fun f => Rabs (B2R (p f))) l) <= eps * (1.001 * T)) by (apply Rmult_le_compat_l; [lra|exact T2]).
      replace (B2R (vsum (map p l)) - total (map r l)) with ((B2R (vsum (map p l)) - total (map (fun f => B2R (p f)) l)) + (total (map (fun f => B2R (p f)) l) - total (map r l))) by ring.
      eapply Rle_trans; [apply Rabs_triang|]. nra.
  Qed.

  Variable x : nat -> f64.
  Hypothesis Hx : forall f, (f < m)%nat -> is_finite (x f) = true /\ mid (-140) 140 (B2R (x f)).
  Hypothesis Hx0 : exists f, (f < m)%nat /\ B2R (x f) <> 0.
  Let xr' f := B2R (x f).

  Lemma sq_range : bpow radix2 (-280) <= dotR m xr' xr' <= bpow radix2 333.
  Proof.
    destruct Hx0 as (f & Hf & Hne). split.
    - destruct (Hx f Hf) as (_ & [E|B]); [contradiction|].
      apply Rle_trans with (xr' f * xr' f).
      + unfold xr'. rewrite <- (Rabs_pos_eq (B2R (x f) * B2R (x f))) by nra. rewrite Rabs_mult. change (-280)%Z with (-140 + -140)%Z. rewrite bpow_plus.
        pose proof (bpow_gt_0 radix2 (-140)). apply Rmult_le_compat; lra.
      + unfold dotR. assert (G : forall l, In f l -> xr' f * xr' f <= rsum (map (fun f => xr' f * xr' f) l)).
        { assert (P : forall l, 0 <= rsum (map (fun f => xr' f * xr' f) l)).
          { intros l. apply rsum_nonneg. intros y Hy. apply in_map_iff in Hy as (g & <- & _). nra. }
          induction l as [|a l IH]; [intros []|]. cbn. fold (rsum (map (fun f => xr' f * xr' f) l)). intros [->|Hl].
          - pose proof (P l). lra.
          - pose proof (IH Hl). pose proof (P l). nra. }
        apply G. apply in_seq. lia.
    - change (dotR m xr' xr') with (total (map (fun f => xr' f * xr' f) (seq 0 m))).
      apply Rle_trans with (total (map (fun _ => bpow radix2 280) (seq 0 m))).
      + apply total_le. intros g Hg. apply in_seq in Hg. destruct (Hx g ltac:(lia)) as (_ & M).
        pose proof (mid_mul _ _ _ _ _ _ M M) as [E|B]; [unfold xr'; rewrite E; apply bpow_ge_0|]. apply Rle_trans with (1 := Rle_abs _). exact (proj2 B).
      + rewrite total_const, seq_length. change 333%Z with (53 + 280)%Z. rewrite bpow_plus. apply Rmult_le_compat_r; [apply bpow_ge_0|].
        rewrite INR_IZR_INZ. change (bpow radix2 53) with (IZR (2 ^ 53)). now apply IZR_le.
  Qed.

  Lemma norm64 : let N := nsqrt (vsum (map (fun f => nmul (x f) (x f)) (seq 0 m))) in
    is_finite N = true /\ lclose (6 * eps) (B2R N) (normR m xr') /\ bpow radix2 (-140) <= normR m xr' <= bpow radix2 167.
  Proof.
    intros N. pose proof ceps as (Pu & Ue & E6). pose proof sq_range as SR. pose proof (bpow_gt_0 radix2 (-280)) as P280.
    destruct (dot64 (fun f => nmul (x f) (x f)) (fun f => xr' f * xr' f) 2) as (F & A).
    - intros f Hf. destruct (Hx f Hf) as (Ff & M). pose proof (mid_mul _ _ _ _ _ _ M M) as MM.
      destruct (mulr (x f) (x f) Ff Ff) as (Fm & C); [apply mid_weak with (3 := MM); lia|]. split; [exact Fm|]. split.
      + apply rclose_weak with (2 := C). lra.
      + apply (mid_weak _ _ (-280) 299) in MM; [|lia|lia]. destruct MM as [E|B]; [unfold xr'; rewrite E, Rabs_R0; apply bpow_ge_0|apply B].
    - lra.
    - assert (E : total (map (fun f => Rabs (xr' f * xr' f)) (seq 0 m)) = dotR m xr' xr').
      { unfold dotR. change rsum with total. f_equal. apply map_ext. intros f. apply Rabs_pos_eq. nra. }
      rewrite E in A. change (total (map (fun f => xr' f * xr' f) (seq 0 m))) with (dotR m xr' xr') in A.
      set (S := dotR m xr' xr') in *. set (s := vsum (map (fun f => nmul (x f) (x f)) (seq 0 m))) in *.
      assert (L : lclose (2 * (3.1 * eps)) (B2R s) S).
      { apply lclose_rel; [lra|lra|]. apply Rle_trans with (1 := A). apply Rmult_le_compat_r; lra. }
      pose proof (lclose_pos _ _ _ L) as Ps.
      pose proof (lclose_range _ _ _ _ _ L SR ltac:(lra)) as Rs.
      assert (SN : bpow radix2 (-140) <= normR m xr' <= bpow radix2 167).
      { unfold normR. fold S. split.
        - rewrite <- (sqrt_Rsqr (bpow radix2 (-140))) by apply bpow_ge_0. apply sqrt_le_1_alt. unfold Rsqr. rewrite <- bpow_plus. apply SR.
        - rewrite <- (sqrt_Rsqr (bpow radix2 167)) by apply bpow_ge_0. apply sqrt_le_1_alt. unfold Rsqr. rewrite <- bpow_plus.
          apply Rle_trans with (1 := proj2 SR). apply bpow_le. lia. }
      destruct (sqrt64 s F Ps) as (Fn & Ln).
      { apply Rle_trans with (bpow radix2 (-141)); [apply bpow_le; lia|]. rewrite <- (sqrt_Rsqr (bpow radix2 (-141))) by apply bpow_ge_0.
        apply sqrt_le_1_alt. unfold Rsqr. rewrite <- bpow_plus. apply Rle_trans with (2 := proj1 Rs). apply bpow_le. lia. }
      split; [exact Fn|]. split; [|exact SN]. apply lclose_weak with (2 * u53 + 2 * (3.1 * eps) / 2); [lra|].
      apply lclose_trans with (1 := Ln). unfold normR. fold S. now apply lclose_sqrt.
  Qed.

  (** the normalised vector *)
  Lemma unit64 f : (f < m)%nat -> let N := nsqrt (vsum (map (fun f => nmul (x f) (x f)) (seq 0 m))) in
    is_finite (ndiv (x f) N) = true /\ rclose (8 * eps) (B2R (ndiv (x f) N)) (xr' f / normR m xr') /\ mid (-307) 280 (xr' f / normR m xr').
  Proof.
    intros Hf N. destruct norm64 as (FN & LN & BN). fold N in FN, LN. pose proof ceps as (Pu & Ue & E6).
    destruct (Hx f Hf) as (Ff & M). pose proof (lclose_pos _ _ _ LN) as PN.
    pose proof (lclose_range _ _ _ _ _ LN BN ltac:(lra)) as RN.
    destruct (divr (x f) N Ff) as (Fd & C); [lra| |].
    - apply mid_weak with (3 := mid_div _ _ _ _ _ _ M RN); lia.
    - split; [exact Fd|]. split.
      + apply rclose_weak with (2 * u53 + (0 + 6 * eps)); [lra|]. apply rclose_trans with (1 := C). apply rclose_div; [apply rclose_refl|exact LN].
      + apply mid_weak with (3 := mid_div _ _ _ _ _ _ M BN); lia.
  Qed.
End Cos.

Section Cos2.
  Variables (eps : R) (m : nat) (vsum : list f64 -> f64).
  Hypothesis He : u53 <= eps <= bpow radix2 (-20).
  Hypothesis Hs : sum_close eps m vsum.
  Hypothesis Hm : (Z.of_nat m <= 2 ^ 53)%Z.
  Variables (x y : nat -> f64).
  Hypothesis Hx : forall f, (f < m)%nat -> is_finite (x f) = true /\ mid (-140) 140 (B2R (x f)).
  Hypothesis Hx0 : exists f, (f < m)%nat /\ B2R (x f) <> 0.
  Hypothesis Hy : forall f, (f < m)%nat -> is_finite (y f) = true /\ mid (-140) 140 (B2R (y f)).
  Hypothesis Hy0 : exists f, (f < m)%nat /\ B2R (y f) <> 0.
  Let xv f := B2R (x f).
  Let yv f := B2R (y f).

  Definition unit_of (z : nat -> f64) (f : nat) : f64 := ndiv (z f) (nsqrt (vsum (map (fun f => nmul (z f) (z f)) (seq 0 m)))).

  Lemma cos64 : is_finite (vdot vsum m (unit_of x) (unit_of y)) = true /\
    Rabs (B2R (vdot vsum m (unit_of x) (unit_of y)) - cosR m xv yv) <= 20 * eps.
  Proof.
    pose proof (ceps eps m He) as (Pu & Ue & E6).
    destruct (norm64 eps m vsum He Hs Hm x Hx Hx0) as (_ & _ & Bx). destruct (norm64 eps m vsum He Hs Hm y Hy Hy0) as (_ & _ & By).
    cbv zeta in Bx, By. fold xv in Bx. fold yv in By.
    set (Nx := normR m xv) in *. set (Ny := normR m yv) in *. pose proof (bpow_gt_0 radix2 (-140)) as P140.
    set (r := fun f => xv f / Nx * (yv f / Ny)).
    destruct (dot64 eps m vsum He Hs (fun f => nmul (unit_of x f) (unit_of y f)) r 18) as (F & A).
    - intros f Hf. destruct (unit64 eps m vsum He Hs Hm x Hx Hx0 f Hf) as (F1 & C1 & M1). destruct (unit64 eps m vsum He Hs Hm y Hy Hy0 f Hf) as (F2 & C2 & M2).
      fold (unit_of x f) in F1, C1. fold (unit_of y f) in F2, C2. fold xv in C1, M1. fold yv in C2, M2. fold Nx in C1, M1. fold Ny in C2, M2. change (B2R (x f)) with (xv f) in C1, M1. change (B2R (y f)) with (yv f) in C2, M2.
      pose proof (rclose_mul _ _ _ _ _ _ C1 C2) as C. fold (r f) in C.
      assert (M : mid (-614) 560 (r f)) by exact (mid_mul _ _ _ _ _ _ M1 M2).
      destruct (mulr (unit_of x f) (unit_of y f) F1 F2) as (Fm & Cm).
      + apply mid_weak with (3 := mid_rclose _ _ _ _ _ C M ltac:(lra)); lia.
      + split; [exact Fm|]. split.
        * apply rclose_weak with (2 * u53 + (8 * eps + 8 * eps)); [lra|]. apply rclose_trans with (1 := Cm). exact C.
        * pose proof (entry_le_norm m xv f ltac:(fold Nx; lra) Hf) as U1. pose proof (entry_le_norm m yv f ltac:(fold Ny; lra) Hf) as U2. fold Nx in U1. fold Ny in U2.
          apply Rle_trans with 1; [|change 1 with (bpow radix2 0); apply bpow_le; lia]. unfold r. rewrite Rabs_mult.
          replace 1 with (1 * 1) by ring. apply Rmult_le_compat; try apply Rabs_pos; assumption.
    - lra.
    - split; [exact F|].
      assert (Er : total (map r (seq 0 m)) = cosR m xv yv).
      { unfold cosR. fold Nx Ny. unfold dotR. change rsum with total. replace (total (map (fun f => xv f * yv f) (seq 0 m)) / (Nx * Ny)) with (/ (Nx * Ny) * total (map (fun f => xv f * yv f) (seq 0 m))) by (field; lra).
        rewrite <- total_mult, map_map. f_equal. apply map_ext. intros f. unfold r. field. lra. }
      assert (Ea : total (map (fun f => Rabs (r f)) (seq 0 m)) <= 1).
      { pose proof (cauchy_schwarz m (fun f => Rabs (xv f)) (fun f => Rabs (yv f))) as CS.
        assert (Nn : forall z, normR m (fun f => Rabs (z f)) = normR m z).
        { intros z. unfold normR, dotR. do 2 f_equal. apply map_ext. intros f. rewrite <- Rabs_mult. apply Rabs_pos_eq. nra. }
        rewrite !Nn in CS. fold Nx Ny in CS. apply Rle_trans with (1 := Rle_abs _) in CS.
        replace (total (map (fun f => Rabs (r f)) (seq 0 m))) with (/ (Nx * Ny) * dotR m (fun f => Rabs (xv f)) (fun f => Rabs (yv f))).
        - assert (PP : 0 < Nx * Ny) by (apply Rmult_lt_0_compat; lra). apply Rmult_le_reg_l with (Nx * Ny); [exact PP|]. rewrite <- Rmult_assoc, Rinv_r by lra. lra.
        - unfold dotR. change rsum with total. rewrite <- total_mult, map_map. f_equal. apply map_ext. intros f. unfold r, Rdiv.
          rewrite !Rabs_mult, !Rabs_inv, (Rabs_pos_eq Nx), (Rabs_pos_eq Ny) by lra. field. lra. }
      rewrite Er in A. unfold vdot. apply Rle_trans with (1 := A).
      apply Rle_trans with ((1.02 * 18 + 1.01) * eps * 1); [apply Rmult_le_compat_l; nra|lra].
  Qed.

  (** 1 - cos, and 0 if that is negative *)
  Lemma cosdist64 : let d := nsub n1 (vdot vsum m (unit_of x) (unit_of y)) in
    let v := if nlt d n0 then n0 else d in
    is_finite v = true /\ Rabs (B2R v - (1 - cosR m xv yv)) <= 24 * eps.
  Proof.
    intros d v. pose proof (ceps eps m He) as (Pu & Ue & E6). destruct cos64 as (F & A). set (c := vdot vsum m (unit_of x) (unit_of y)) in *.
    destruct (norm64 eps m vsum He Hs Hm x Hx Hx0) as (_ & _ & Bx). destruct (norm64 eps m vsum He Hs Hm y Hy Hy0) as (_ & _ & By).
    cbv zeta in Bx, By. fold xv in Bx. fold yv in By. pose proof (bpow_gt_0 radix2 (-140)) as P140.
    assert (CR : -1 <= cosR m xv yv <= 1).
    { apply cosR_range; [pose proof (normR_sq m xv) as E|pose proof (normR_sq m yv) as E]; rewrite <- E; apply Rmult_lt_0_compat; lra. }
    set (t := cosR m xv yv) in *. apply Rabs_le_inv in A.
    destruct n1_f64 as (E1 & F1). destruct n0_f64 as (E0 & F0).
    destruct (rnd_any (1 - B2R c)) as (e & w & Hee & Hw & Er). apply Rabs_le_inv in Hee, Hw.
    assert (Rr : Rabs (rnd (1 - B2R c) - (1 - B2R c)) <= 4 * eps).
    { rewrite Er. replace ((1 - B2R c) * (1 + e) + w - (1 - B2R c)) with ((1 - B2R c) * e + w) by ring.
      eapply Rle_trans; [apply Rabs_triang|]. rewrite Rabs_mult. assert (Rabs (1 - B2R c) <= 2.1) by (apply Rabs_le; lra).
      assert (Rabs e <= eps) by (apply Rabs_le; lra). assert (Rabs w <= eps) by (apply Rabs_le; lra). pose proof (Rabs_pos e). pose proof (Rabs_pos (1 - B2R c)).
      assert (Rabs (1 - B2R c) * Rabs e <= 2.1 * eps) by (apply Rmult_le_compat; lra). lra. }
    apply Rabs_le_inv in Rr.
    assert (Vd : is_finite d = true /\ B2R d = rnd (1 - B2R c)).
    { unfold d. change (nsub n1 c) with (Bminus mode_NE (n1 (V:=f64)) c). set (one := n1 (V:=f64)) in *.
      pose proof (Bminus_correct 53 1024 prec53 emax1024 mode_NE one c F1 F) as B. fold (rnd (B2R one - B2R c)) in B. rewrite E1 in B. rewrite Rlt_bool_true in B.
      - destruct B as (V & Fd & _). split; assumption.
      - apply Rle_lt_trans with (bpow radix2 2); [apply Rabs_le; change (bpow radix2 2) with 4; lra|apply bpow_lt; lia]. }
    destruct Vd as (Fd & Vd). unfold v. destruct (nlt d n0) eqn:El.
    - split; [exact F0|]. apply (nlt_B2R d n0 Fd F0) in El. rewrite E0, Vd in El. rewrite E0. apply Rabs_le. lra.
    - split; [exact Fd|]. rewrite Vd. apply Rabs_le. lra.
  Qed.
End Cos2.
