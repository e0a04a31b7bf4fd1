(** C166: centering of vectors is accurate in float64. *)
From Coq Require Import String.
From Coq Require Import ZArith List Arith Lia Bool Reals Lra.
From Flocq Require Import Core BinarySingleNaN.
From Verif Require Import Py Num NumT Arr S_LS M_LS P_LS M_Centering S_LSFloat P_F64 P_LSFloat P_LSAcc S_NicdmAcc P_NicdmAcc P_Vec P_Centering P_Ineq S_CentAcc Properties_NicdmAcc.
Import ListNotations.
Local Open Scope nat_scope.
Local Open Scope R_scope.

Lemma len_pos (l : list nat) : l <> [] -> 0 < INR (length l).
Proof. intros H. apply (lt_INR 0). destruct l; [contradiction|cbn; lia]. Qed.
Lemma mean_le_abs X rows f : rows <> [] -> Rabs (col_mean X rows f) <= col_mean_abs X rows f.
  Proof.
    intros Hr. unfold col_mean, col_mean_abs. assert (P : 0 < INR (length rows)) by (apply (lt_INR 0); destruct rows; [contradiction|cbn; lia]).
    unfold Rdiv. rewrite Rabs_mult, (Rabs_pos_eq (/ _)) by (left; now apply Rinv_0_lt_compat).
    apply Rmult_le_compat_r; [left; now apply Rinv_0_lt_compat|].
    pose proof (total_abs (fun i => B2R (at2 X i f)) (fun _ => 0) rows) as T. rewrite total_const, Rmult_0_r, Rminus_0_r in T.
    rewrite (total_ext (fun i => Rabs (B2R (at2 X i f))) (fun i => Rabs (B2R (at2 X i f) - 0))); [exact T|].
    intros i _. now rewrite Rminus_0_r.
  Qed.

Section Acc.
  Variables (eps : R) (n : nat) (vsum : list f64 -> f64).
  Hypothesis He : u53 <= eps <= bpow radix2 (-20).
  Hypothesis Hs : sum_close eps n vsum.
  Hypothesis Hn : (Z.of_nat n <= 2 ^ 53)%Z.

  (** the computed mean *)
  Lemma rows_mean64 X rows f : rows <> [] -> (length rows <= n)%nat -> (forall i, In i rows -> nisfin (at2 X i f) = true /\ Rabs (B2R (at2 X i f)) <= bpow radix2 300) ->
    0 <= col_mean_abs X rows f <= bpow radix2 300 /\
    is_finite (rows_mean vsum X rows f) = true /\
    Rabs (B2R (rows_mean vsum X rows f) - col_mean X rows f) <= 2.01 * eps * col_mean_abs X rows f + tiny.
  Proof.
    intros Hr Hl Hx. destruct (eps_small eps He) as (U0 & U1 & U2).
    assert (P : 0 < INR (length rows)) by (apply (lt_INR 0); destruct rows; [contradiction|cbn; lia]).
    set (L := map (fun i => at2 X i f) rows).
    destruct (Hs L) as (Fs & Es).
    { unfold L. now rewrite map_length. }
    { intros x Hx'. unfold L in Hx'. apply in_map_iff in Hx' as (i & <- & Hi). now apply Hx. }
    unfold L in Es. rewrite !map_map in Es. fold L in Es.
    set (T := total (map (fun i => B2R (at2 X i f)) rows)) in *. set (A := total (map (fun i => Rabs (B2R (at2 X i f))) rows)) in *.
    assert (BA : 0 <= A <= INR (length rows) * bpow radix2 300).
    { destruct (total_bounds (fun i => Rabs (B2R (at2 X i f))) 0 (bpow radix2 300) rows) as (B1 & B2).
      - intros i Hi. split; [apply Rabs_pos|now apply Hx].
      - rewrite Rmult_0_r in B1. split; [exact B1|exact B2]. }
    set (t := INR (length rows)) in *.
    assert (BM : 0 <= A / t <= bpow radix2 300).
    { split; [apply Rmult_le_pos; [lra|left; now apply Rinv_0_lt_compat]|]. apply Rmult_le_reg_r with t; [exact P|]. unfold Rdiv. rewrite Rmult_assoc, Rinv_l by lra. lra. }
    unfold col_mean, col_mean_abs. fold T A t. split; [exact BM|].
    destruct (nofnat64 (length rows)) as (Fn & En); [lia|]. fold t in En.
    assert (AT : Rabs T <= A).
    { pose proof (mean_le_abs X rows f Hr) as M. unfold col_mean, col_mean_abs in M. fold T A t in M. unfold Rdiv in M.
      rewrite Rabs_mult, (Rabs_pos_eq (/ t)) in M by (left; now apply Rinv_0_lt_compat). apply Rmult_le_reg_r with (/ t); [now apply Rinv_0_lt_compat|exact M]. }
    assert (AS : Rabs (B2R (vsum L) / t) <= 1.01 * (A / t)).
    { unfold Rdiv at 1. rewrite Rabs_mult, (Rabs_pos_eq (/ t)) by (left; now apply Rinv_0_lt_compat). unfold Rdiv. rewrite <- Rmult_assoc.
      apply Rmult_le_compat_r; [left; now apply Rinv_0_lt_compat|].
      replace (B2R (vsum L)) with (T + (B2R (vsum L) - T)) by ring. eapply Rle_trans; [apply Rabs_triang|].
      assert (eps * A <= 0.01 * A) by (apply Rmult_le_compat_r; lra). lra. }
    change (rows_mean vsum X rows f) with (ndiv (vsum L) (nofnat (V:=f64) (length rows))). assert (D0 : B2R (nofnat (V:=f64) (length rows)) <> 0) by (rewrite En; lra).
    destruct (div_cases (vsum L) (nofnat (length rows)) Fs D0) as (_ & [(_ & F & R)|(B & _)]).
    - split; [exact F|]. rewrite R, En. fold (rnd (B2R (vsum L) / t)).
      pose proof (rnd_any (B2R (vsum L) / t)) as RA.
      assert (E1 : Rabs (B2R (vsum L) / t - T / t) <= eps * (A / t)).
      { replace (B2R (vsum L) / t - T / t) with ((B2R (vsum L) - T) / t) by (field; lra).
        unfold Rdiv at 1. rewrite Rabs_mult, (Rabs_pos_eq (/ t)) by (left; now apply Rinv_0_lt_compat). unfold Rdiv. rewrite <- Rmult_assoc.
        apply Rmult_le_compat_r; [left; now apply Rinv_0_lt_compat|exact Es]. }
      assert (E2 : u53 * Rabs (B2R (vsum L) / t) <= eps * (1.01 * (A / t))).
      { apply Rmult_le_compat; [lra|apply Rabs_pos|lra|exact AS]. }
      change (Rabs (rnd (B2R (vsum L) / t) - T / t) <= 2.01 * eps * (A / t) + tiny).
      set (s := B2R (vsum L) / t) in *. set (a := A / t) in *.
      replace (rnd s - T / t) with ((rnd s - s) + (s - T / t)) by ring. eapply Rle_trans; [apply Rabs_triang|]. lra.
    - exfalso. rewrite En in B. apply Rle_not_lt in B. apply B. fold (rnd (B2R (vsum L) / t)).
      pose proof (rnd_any (B2R (vsum L) / t)) as RA. set (s := B2R (vsum L) / t) in *.
      assert (Rabs (rnd s) <= Rabs s + (u53 * Rabs s + tiny)).
      { replace (rnd s) with (s + (rnd s - s)) by ring. eapply Rle_trans; [apply Rabs_triang|]. lra. }
      assert (u53 * Rabs s <= 1 * Rabs s) by (apply Rmult_le_compat_r; [apply Rabs_pos|lra]).
      assert (tiny <= bpow radix2 300) by (apply bpow_le; lia).
      apply Rle_lt_trans with (bpow radix2 2 * bpow radix2 300); [change (bpow radix2 2) with 4; lra|]. rewrite <- bpow_plus. apply bpow_lt. lia.
  Qed.
End Acc.

(** C166: every entry of the centred matrix is x - mean up to one rounding and the error of the
    mean; the means of the training objects vanish up to that error *)
Theorem C166_accuracy :
  forall eps vsum (X C : arr2 f64) mask,
    u53 <= eps <= bpow radix2 (-20) -> sum_close eps (nrow X) vsum -> (Z.of_nat (nrow X) <= 2 ^ 53)%Z ->
    moderate 300 X -> training (nrow X) mask <> [] ->
    centering vsum X "vector" mask = Ok C ->
    let T := training (nrow X) mask in
    nrow C = nrow X /\ ncol C = ncol X /\
    forall f, (f < ncol X)%nat ->
      (forall i, (i < nrow X)%nat ->
         nisfin (at2 C i f) = true /\
         Rabs (B2R (at2 C i f) - (B2R (at2 X i f) - col_mean X T f)) <=
           bpow radix2 (-53) * Rabs (B2R (at2 X i f) - col_mean X T f) + 3 * eps * col_mean_abs X T f + 2 * bpow radix2 (-1000)) /\
      Rabs (col_mean C T f) <= 5 * eps * col_mean_abs X T f + 2 * bpow radix2 (-1000).
Proof.
  intros eps vsum X C mask He Hs Hn Mo HT HC T.
  destruct (eps_small eps He) as (U0 & U1 & U2).
  unfold centering in HC. cbn [String.eqb] in HC. injection HC as <-. cbn [nrow ncol].
  split; [reflexivity|]. split; [reflexivity|]. intros f Hf. rewrite ls_train_training. fold T.
  assert (InT : forall i, In i T -> (i < nrow X)%nat) by (intros i Hi; now apply training_lt in Hi).
  assert (LT : (length T <= nrow X)%nat).
  { unfold T, training. destruct mask; [|now rewrite seq_length]. rewrite <- (seq_length (nrow X) 0) at 2. apply filter_length_le. }
  destruct (rows_mean64 eps (nrow X) vsum He Hs Hn X T f HT LT (fun i Hi => Mo i f (InT i Hi) Hf)) as (BA & Fm & Em).
  pose proof (mean_le_abs X T f HT) as MA.
  set (mu := col_mean X T f) in *. set (a := col_mean_abs X T f) in *. set (m := rows_mean vsum X T f) in *.
  assert (Pt : 0 < tiny) by apply bpow_gt_0. fold tiny. fold u53.
  assert (TS : tiny <= bpow radix2 300) by (apply bpow_le; lia).
  assert (EA : eps * a <= 0.01 * a) by (apply Rmult_le_compat_r; lra).
  assert (EA0 : 0 <= eps * a) by (apply Rmult_le_pos; lra).
  assert (Bm : Rabs (B2R m) <= bpow radix2 1000).
  { replace (B2R m) with (mu + (B2R m - mu)) by ring. eapply Rle_trans; [apply Rabs_triang|].
    apply Rle_trans with (bpow radix2 2 * bpow radix2 300); [change (bpow radix2 2) with 4; lra|]. rewrite <- bpow_plus. apply bpow_le. lia. }
  assert (Ent : forall i, (i < nrow X)%nat -> nisfin (nsub (at2 X i f) m) = true /\
     Rabs (B2R (nsub (at2 X i f) m) - (B2R (at2 X i f) - mu)) <= u53 * Rabs (B2R (at2 X i f) - mu) + 3 * eps * a + 2 * tiny).
  { intros i Hi. destruct (Mo i f Hi Hf) as (Fx & Bx).
    destruct (sub64 (at2 X i f) m Fx Fm) as (Fd & e & He' & Ed); [|exact Bm|].
    { apply Rle_trans with (1 := Bx). apply bpow_le. lia. }
    split; [exact Fd|]. rewrite Ed. set (x := B2R (at2 X i f)) in *. set (v := B2R m) in *.
    replace ((x - v) * (1 + e) - (x - mu)) with ((mu - v) + e * ((x - mu) + (mu - v))) by ring.
    eapply Rle_trans; [apply Rabs_triang|]. rewrite Rabs_mult.
    assert (D : Rabs (mu - v) <= 2.01 * eps * a + tiny) by (rewrite Rabs_minus_sym; exact Em).
    assert (E : Rabs e * Rabs (x - mu + (mu - v)) <= u53 * (Rabs (x - mu) + Rabs (mu - v))).
    { apply Rmult_le_compat; [apply Rabs_pos|apply Rabs_pos|exact He'|apply Rabs_triang]. }
    assert (G : u53 * Rabs (mu - v) <= 0.01 * Rabs (mu - v)) by (apply Rmult_le_compat_r; [apply Rabs_pos|lra]).
    rewrite Rmult_plus_distr_l in E. lra. }
  split.
  - intros i Hi. cbn [at2]. now apply Ent.
  - unfold col_mean. cbn [at2]. set (t := INR (length T)).
    assert (P : 0 < t) by (now apply len_pos).
    assert (Z : total (map (fun i => B2R (at2 X i f) - mu) T) = 0).
    { rewrite (total_ext _ (fun i => B2R (at2 X i f) + (fun _ => - mu) i)) by (intros; cbv beta; ring).
      rewrite total_plus, total_const. fold t. unfold mu, col_mean. fold t. field. lra. }
    pose proof (total_abs (fun i => B2R (nsub (at2 X i f) m)) (fun i => B2R (at2 X i f) - mu) T) as TA. rewrite Z, Rminus_0_r in TA.
    assert (S1 : total (map (fun i => Rabs (B2R (nsub (at2 X i f) m) - (B2R (at2 X i f) - mu))) T) <=
                 total (map (fun i => u53 * (Rabs (B2R (at2 X i f)) + (fun _ => a) i) + (fun _ => 3 * eps * a + 2 * tiny) i) T)).
    { apply total_le. intros i Hi. cbv beta. apply Rle_trans with (1 := proj2 (Ent i (InT i Hi))).
      assert (Rabs (B2R (at2 X i f) - mu) <= Rabs (B2R (at2 X i f)) + a).
      { unfold Rminus. eapply Rle_trans; [apply Rabs_triang|]. rewrite Rabs_Ropp. lra. }
      assert (u53 * Rabs (B2R (at2 X i f) - mu) <= u53 * (Rabs (B2R (at2 X i f)) + a)) by (apply Rmult_le_compat_l; lra). lra. }
    rewrite total_plus, total_scale, total_plus, !total_const in S1. fold t in S1.
    assert (Ea : total (map (fun i => Rabs (B2R (at2 X i f))) T) = a * t) by (unfold a, col_mean_abs; fold t; field; lra).
    rewrite Ea in S1.
    unfold Rdiv. rewrite Rabs_mult, (Rabs_pos_eq (/ t)) by (left; now apply Rinv_0_lt_compat).
    apply Rmult_le_reg_r with t; [exact P|]. rewrite Rmult_assoc, Rinv_l, Rmult_1_r by lra.
    apply Rle_trans with (1 := TA). apply Rle_trans with (1 := S1).
    assert (UA : u53 * (a * t) <= eps * (a * t)) by (apply Rmult_le_compat_r; [apply Rmult_le_pos; lra|lra]).
    replace ((5 * eps * a + 2 * tiny) * t) with (2 * (eps * (a * t)) + t * (3 * eps * a + 2 * tiny)) by ring.
    replace (u53 * (a * t + t * a)) with (2 * (u53 * (a * t))) by ring. lra.
Qed.

(** C166: centering a second time changes next to nothing *)
Theorem C166_twice :
  forall eps vsum (X C C2 : arr2 f64) mask,
    u53 <= eps <= bpow radix2 (-20) -> sum_close eps (nrow X) vsum -> (Z.of_nat (nrow X) <= 2 ^ 53)%Z ->
    moderate 297 X -> training (nrow X) mask <> [] ->
    centering vsum X "vector" mask = Ok C -> centering vsum C "vector" mask = Ok C2 ->
    let T := training (nrow X) mask in
    forall i f, (i < nrow X)%nat -> (f < ncol X)%nat ->
      Rabs (B2R (at2 C2 i f) - B2R (at2 C i f)) <=
        2 * bpow radix2 (-53) * Rabs (B2R (at2 X i f) - col_mean X T f) + 12 * eps * col_mean_abs X T f + 5 * bpow radix2 (-1000).
Proof.
  intros eps vsum X C C2 mask He Hs Hn Mo HT HC HC2 T i f Hi Hf.
  destruct (eps_small eps He) as (U0 & U1 & U2).
  assert (Mo' : moderate 300 X).
  { intros a b Ha Hb. destruct (Mo a b Ha Hb) as (F & B). split; [exact F|]. apply Rle_trans with (1 := B). apply bpow_le. lia. }
  destruct (C166_accuracy eps vsum X C mask He Hs Hn Mo' HT HC) as (R1 & R2 & A). fold T in A.
  assert (Pt : 0 < tiny) by apply bpow_gt_0. fold tiny in *. fold u53 in *.
  assert (InT : forall i, In i T -> (i < nrow X)%nat) by (intros j Hj; now apply training_lt in Hj).
  assert (Pn : 0 < INR (length T)) by (now apply len_pos).
  assert (BA : forall g, (g < ncol X)%nat -> 0 <= col_mean_abs X T g <= bpow radix2 297).
  { intros g Hg. unfold col_mean_abs. destruct (total_bounds (fun i => Rabs (B2R (at2 X i g))) 0 (bpow radix2 297) T) as (B1 & B2).
    - intros j Hj. split; [apply Rabs_pos|]. now apply Mo; [apply InT|].
    - rewrite Rmult_0_r in B1. split; [apply Rmult_le_pos; [exact B1|left; now apply Rinv_0_lt_compat]|].
      apply Rmult_le_reg_r with (INR (length T)); [exact Pn|]. unfold Rdiv. rewrite Rmult_assoc, Rinv_l by lra. lra. }
  assert (CB : forall j g, (j < nrow X)%nat -> (g < ncol X)%nat ->
     Rabs (B2R (at2 C j g)) <= (1 + u53) * Rabs (B2R (at2 X j g) - col_mean X T g) + 3 * eps * col_mean_abs X T g + 2 * tiny).
  { intros j g Hj Hg. destruct (A g Hg) as (A1 & _). destruct (A1 j Hj) as (_ & E).
    set (c := B2R (at2 C j g)) in *. set (d := B2R (at2 X j g) - col_mean X T g) in *.
    replace c with (d + (c - d)) by ring. eapply Rle_trans; [apply Rabs_triang|]. lra. }
  assert (DB : forall j g, Rabs (B2R (at2 X j g) - col_mean X T g) <= Rabs (B2R (at2 X j g)) + col_mean_abs X T g).
  { intros j g. pose proof (mean_le_abs X T g HT) as M. unfold Rminus. eapply Rle_trans; [apply Rabs_triang|]. rewrite Rabs_Ropp. lra. }
  assert (UB : forall z, 0 <= z -> 0 <= u53 * z <= 0.001 * z) by (intros z Hz; split; [apply Rmult_le_pos; lra|apply Rmult_le_compat_r; lra]).
  assert (EB : forall z, 0 <= z -> 0 <= eps * z <= 0.001 * z) by (intros z Hz; split; [apply Rmult_le_pos; lra|apply Rmult_le_compat_r; lra]).
  assert (MoC : moderate 300 C).
  { intros j g Hj Hg. rewrite R1 in Hj. rewrite R2 in Hg. split; [now apply (A g Hg)|].
    apply Rle_trans with (1 := CB j g Hj Hg). pose proof (DB j g) as D. destruct (Mo j g Hj Hg) as (_ & B). pose proof (BA g Hg) as B2.
    pose proof (EB _ (proj1 B2)). set (d := Rabs (B2R (at2 X j g) - col_mean X T g)) in *. assert (D0 : 0 <= d) by apply Rabs_pos.
    pose proof (UB d D0). assert (TS : tiny <= bpow radix2 297) by (apply bpow_le; lia).
    apply Rle_trans with (bpow radix2 3 * bpow radix2 297); [change (bpow radix2 3) with 8; lra|]. rewrite <- bpow_plus. apply bpow_le. lia. }
  assert (HT2 : training (nrow C) mask <> []) by (rewrite R1; exact HT).
  assert (Hs2 : sum_close eps (nrow C) vsum) by (rewrite R1; exact Hs).
  destruct (C166_accuracy eps vsum C C2 mask He Hs2 ltac:(rewrite R1; exact Hn) MoC HT2 HC2) as (_ & _ & A').
  rewrite R1, R2 in A'. fold T in A'. fold tiny u53 in A'. destruct (A' f Hf) as (A1' & _). destruct (A1' i Hi) as (_ & E'). destruct (A f Hf) as (_ & Mc).
  pose proof (CB i f Hi Hf) as Ci. pose proof (BA f Hf) as (Ba & _).
  set (a := col_mean_abs X T f) in *. set (d := Rabs (B2R (at2 X i f) - col_mean X T f)) in *. assert (D0 : 0 <= d) by apply Rabs_pos.
  (* mean absolute value of the centred column *)
  assert (AC : 0 <= col_mean_abs C T f <= 2.1 * a + 2 * tiny).
  { unfold col_mean_abs. split.
    - apply Rmult_le_pos; [|left; now apply Rinv_0_lt_compat].
      pose proof (total_le (fun _ => 0) (fun i => Rabs (B2R (at2 C i f))) T (fun _ _ => Rabs_pos _)) as G. rewrite total_const in G. lra.
    - apply Rmult_le_reg_r with (INR (length T)); [exact Pn|]. unfold Rdiv. rewrite Rmult_assoc, Rinv_l, Rmult_1_r by lra.
      apply Rle_trans with (total (map (fun i => 1.001 * (Rabs (B2R (at2 X i f)) + (fun _ => a) i) + (fun _ => 3 * eps * a + 2 * tiny) i) T)).
      + apply total_le. intros j Hj. cbv beta. apply Rle_trans with (1 := CB j f (InT j Hj) Hf). fold a.
        pose proof (DB j f) as D. fold a in D. set (dj := Rabs (B2R (at2 X j f) - col_mean X T f)) in *. assert (Dj : 0 <= dj) by apply Rabs_pos.
        pose proof (UB dj Dj). lra.
      + rewrite total_plus, total_scale, total_plus, !total_const.
        assert (Ea : total (map (fun i => Rabs (B2R (at2 X i f))) T) = a * INR (length T)) by (unfold a, col_mean_abs; field; lra).
        rewrite Ea. set (t := INR (length T)) in *. pose proof (EB a Ba) as G.
        replace (1.001 * (a * t + t * a) + t * (3 * eps * a + 2 * tiny)) with ((2.002 * a + 3 * (eps * a) + 2 * tiny) * t) by lra.
        apply Rmult_le_compat_r; lra. }
  set (ac := col_mean_abs C T f) in *. set (mc := col_mean C T f) in *. set (c := B2R (at2 C i f)) in *. set (c2 := B2R (at2 C2 i f)) in *.
  replace (c2 - c) with ((c2 - (c - mc)) + - mc) by ring. eapply Rle_trans; [apply Rabs_triang|]. rewrite Rabs_Ropp.
  assert (F1 : Rabs (c - mc) <= Rabs c + Rabs mc) by (unfold Rminus; eapply Rle_trans; [apply Rabs_triang|]; rewrite Rabs_Ropp; lra).
  assert (F2 : u53 * Rabs (c - mc) <= u53 * (Rabs c + Rabs mc)) by (apply Rmult_le_compat_l; lra).
  assert (F3 : u53 * Rabs c <= u53 * ((1 + u53) * d + 3 * eps * a + 2 * tiny)) by (apply Rmult_le_compat_l; lra).
  assert (F4 : u53 * Rabs mc <= 0.001 * (5 * eps * a + 2 * tiny)).
  { apply Rle_trans with (0.001 * Rabs mc); [apply UB, Rabs_pos|]. apply Rmult_le_compat_l; lra. }
  assert (F5 : eps * ac <= eps * (2.1 * a + 2 * tiny)) by (apply Rmult_le_compat_l; lra).
  pose proof (UB d D0) as G1. pose proof (UB _ (proj1 G1)) as G2. pose proof (EB a Ba) as G3. pose proof (UB _ (proj1 G3)) as G4.
  pose proof (EB tiny ltac:(lra)) as G5. pose proof (UB tiny ltac:(lra)) as G6.
  replace (u53 * ((1 + u53) * d + 3 * eps * a + 2 * tiny)) with (u53 * d + u53 * (u53 * d) + 3 * (u53 * (eps * a)) + 2 * (u53 * tiny)) in F3 by ring.
  replace (eps * (2.1 * a + 2 * tiny)) with (2.1 * (eps * a) + 2 * (eps * tiny)) in F5 by lra.
  lra.
Qed.

(** three objects with one feature *)
Definition exC : arr2 f64 := Arr2 3 1 (fun i _ => nofnat (i * i)).
Example C166_case : u53 <= INR 3 * bpow radix2 (-52) <= bpow radix2 (-20) /\
  sum_close (INR 3 * bpow radix2 (-52)) (nrow exC) left_to_right /\ moderate 297 exC /\ training (nrow exC) None <> [] /\
  exists C C2, centering left_to_right exC "vector" None = Ok C /\ centering left_to_right C "vector" None = Ok C2.
Proof.
  split; [|split; [|split; [|split]]].
  - assert (E : bpow radix2 (-52) = 2 * u53) by (change 2 with (bpow radix2 1); unfold u53; rewrite <- bpow_plus; reflexivity).
    pose proof u53_pos. replace (INR 3) with 3 by (simpl; lra). split; [lra|].
    apply Rle_trans with (bpow radix2 2 * bpow radix2 (-52)); [change (bpow radix2 2) with 4; lra|]. rewrite <- bpow_plus. apply bpow_le. lia.
  - now apply C158_left_to_right.
  - intros i f Hi Hf. cbn [nrow exC] in Hi. cbn [at2 exC]. destruct (nofnat64 (i * i)) as (F & E).
    { destruct i as [|[|[|i]]]; [| | |lia]; vm_compute; discriminate. }
    split; [exact F|]. rewrite E, Rabs_pos_eq by apply pos_INR. apply Rle_trans with (INR 4).
    + apply le_INR. destruct i as [|[|[|i]]]; lia.
    + replace (INR 4) with (bpow radix2 2) by (simpl; lra). apply bpow_le. lia.
  - discriminate.
  - do 2 eexists. split; reflexivity.
Qed.

Print Assumptions C166_accuracy.
Print Assumptions C166_twice.
