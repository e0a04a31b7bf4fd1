(** Proofs: Robin Hood and Atkinson index in float64. *)
From Coq Require Import String.
From Coq Require Import ZArith Reals Lra List Arith Lia Bool Permutation SpecFloat.
From Flocq Require Import Core BinarySingleNaN Plus_error Relative.
From Verif Require Import Py Num NumT Arr M_Dist M_HubnessClass S_LSFloat P_F64 P_LSFloat P_LSAcc S_NicdmAcc P_NicdmAcc P_CosAcc S_SkewFloat P_SkewFloat P_HubnessClass P_GK3 S_Ineq.
From Verif Require Import Properties_NicdmAcc.
Import ListNotations.
Local Open Scope nat_scope.
Local Open Scope R_scope.

Lemma sub64 (x y : f64) : is_finite x = true -> is_finite y = true -> Rabs (B2R x) <= bpow radix2 1000 -> Rabs (B2R y) <= bpow radix2 1000 ->
  is_finite (nsub x y) = true /\ exists e, Rabs e <= u53 /\ B2R (nsub x y) = (B2R x - B2R y) * (1 + e).
Proof.
  intros Fx Fy Bx By. change (nsub x y) with (Bminus mode_NE x y).
  pose proof (Bminus_correct 53 1024 prec53 emax1024 mode_NE x y Fx Fy) as B. fold (rnd (B2R x - B2R y)) in B.
  destruct (FLT_plus_error_N_ex radix2 (-1074) 53 (fun z => negb (Z.even z)) (B2R x) (- B2R y)) as (e & He & Ee).
  - apply (generic_format_B2R 53 1024).
  - apply generic_format_opp, (generic_format_B2R 53 1024).
  - change (rnd (B2R x - B2R y) = (B2R x - B2R y) * (1 + e)) in Ee.
    assert (U : u_ro radix2 53 = u53).
    { unfold u_ro, u53. change (- (53) + 1)%Z with (-52)%Z. change (-53)%Z with (-1 + -52)%Z. rewrite bpow_plus. reflexivity. }
    rewrite U in He. pose proof u53_pos as Pu.
    assert (He' : Rabs e <= u53).
    { apply Rle_trans with (1 := He). apply Rmult_le_reg_r with (1 + u53); [lra|]. unfold Rdiv. rewrite Rmult_assoc, Rinv_l by lra. nra. }
    assert (S : Rabs (rnd (B2R x - B2R y)) < bpow radix2 1024).
    { rewrite Ee, Rabs_mult.
      assert (A1 : Rabs (B2R x - B2R y) <= 2 * bpow radix2 1000).
      { unfold Rminus. eapply Rle_trans; [apply Rabs_triang|]. rewrite Rabs_Ropp. lra. }
      assert (A2 : Rabs (1 + e) <= 2) by (apply Rabs_le_inv in He'; apply Rabs_le; lra).
      pose proof (Rabs_pos (B2R x - B2R y)). pose proof (Rabs_pos (1 + e)). pose proof (bpow_gt_0 radix2 1000).
      apply Rle_lt_trans with (bpow radix2 2 * bpow radix2 1000); [change (bpow radix2 2) with 4; nra|]. rewrite <- bpow_plus. apply bpow_lt. lia. }
    rewrite (Rlt_bool_true _ _ S) in B. destruct B as (V & F & _). split; [exact F|]. exists e. split; [exact He'|]. rewrite V. exact Ee.
Qed.

Lemma vabs64 (x : f64) : is_finite x = true -> is_finite (vabs x) = true /\ B2R (vabs x) = Rabs (B2R x).
Proof.
  intros F. unfold vabs. destruct n0_f64 as (E0 & F0). destruct (nlt x n0) eqn:L.
  - assert (X : B2R x < 0) by (rewrite <- E0; now apply nlt_B2R). change (nopp x) with (Bopp x).
    rewrite is_finite_Bopp, B2R_Bopp, Rabs_left by exact X. auto.
  - split; [exact F|]. destruct (Rle_or_lt 0 (B2R x)) as [P|P]; [now rewrite Rabs_pos_eq|].
    assert (T : nlt x n0 = true) by (apply nlt_B2R; [exact F|exact F0|lra]). congruence.
Qed.

(** rounding of any number *)
Definition tiny : R := bpow radix2 (-1000).
Lemma rnd_any x : Rabs (rnd x - x) <= u53 * Rabs x + tiny.
Proof.
  pose proof u53_pos as Pu. assert (Pt : 0 < tiny) by apply bpow_gt_0. destruct (Rle_or_lt (bpow radix2 (-1022)) (Rabs x)) as [H|H].
  - destruct (rnd_norm x H) as (e & He & ->). replace (x * (1 + e) - x) with (x * e) by ring. rewrite Rabs_mult. pose proof (Rabs_pos x). nra.
  - assert (B : Rabs (rnd x) <= bpow radix2 (-1022)).
    { apply Rabs_lt_inv in H. assert (G : forall z, z <= bpow radix2 (-1022) -> rnd z <= bpow radix2 (-1022)) by (intros z Hz; apply rnd_le_bpow; [lia|exact Hz]).
      apply Rabs_le. split; [|apply G; lra]. rewrite <- (Ropp_involutive x), rnd_opp. apply Ropp_le_contravar, G. lra. }
    assert (T : bpow radix2 (-1022) + bpow radix2 (-1022) <= tiny).
    { assert (T : bpow radix2 (-1022) * bpow radix2 1 = bpow radix2 (-1021)) by (rewrite <- bpow_plus; reflexivity).
      change (bpow radix2 1) with 2 in T. pose proof (bpow_le radix2 (-1021) (-1000) ltac:(lia)). unfold tiny. lra. }
    unfold Rminus. eapply Rle_trans; [apply Rabs_triang|]. rewrite Rabs_Ropp. pose proof (Rabs_pos x). nra.
Qed.

Lemma total_Z l : total (map IZR l) = IZR (sumZ l).
Proof. rewrite <- fold_right_sumZ. induction l as [|a l IH]; cbn; [reflexivity|]. fold (total (map IZR l)). rewrite IH, plus_IZR. reflexivity. Qed.
Lemma total_plus {A} (f g : A -> R) l : total (map (fun a => f a + g a) l) = total (map f l) + total (map g l).
Proof. induction l as [|a l IH]; cbn; [ring|]. fold (total (map f l)) (total (map g l)) (total (map (fun a => f a + g a) l)). rewrite IH. ring. Qed.
Lemma total_scale {A} c (f : A -> R) l : total (map (fun a => c * f a) l) = c * total (map f l).
Proof. induction l as [|a l IH]; cbn; [ring|]. fold (total (map f l)) (total (map (fun a => c * f a) l)). rewrite IH. ring. Qed.
Lemma total_ext {A} (f g : A -> R) l : (forall a, In a l -> f a = g a) -> total (map f l) = total (map g l).
Proof. intros H. f_equal. now apply map_ext_in. Qed.

Section Occ.
  Variable l : list Z.
  Hypothesis Hnn : forall x, In x l -> (0 <= x)%Z.
  Hypothesis Hpos : (0 < sumZ l)%Z.
  Let n := length l.
  Let S := IZR (sumZ l).

  Lemma n_pos : (0 < n)%nat.
  Proof. unfold n. destruct l; [cbn in Hpos; lia|cbn; lia]. Qed.
  Lemma S_ge1 : 1 <= S.
  Proof. apply IZR_le. lia. Qed.
  Lemma elem_le x : In x l -> 0 <= IZR x <= S.
  Proof.
    intros Hx. split; [apply IZR_le, Hnn, Hx|]. apply IZR_le. rewrite <- fold_right_sumZ. clear Hpos. induction l as [|a l' IH]; [contradiction|].
    cbn. assert (P : forall y, In y l' -> (0 <= y)%Z) by (intros; apply Hnn; now right).
    assert (0 <= fold_right Z.add 0 l')%Z.
    { clear -P. induction l' as [|b l' IH]; cbn; [lia|]. assert (0 <= b)%Z by (apply P; now left). assert (0 <= fold_right Z.add 0 l')%Z by (apply IH; intros; apply P; now right). lia. }
    destruct Hx as [->|Hx]; [lia|]. assert (0 <= a)%Z by (apply Hnn; now left). specialize (IH P Hx). lia.
  Qed.
  Lemma dev_le : total (map (fun x => Rabs (IZR x - avg l)) l) <= 2 * S.
  Proof.
    pose proof n_pos as Pn. apply lt_0_INR in Pn. pose proof S_ge1 as PS.
    apply Rle_trans with (total (map (fun x => IZR x + avg l) l)).
    - apply total_le. intros x Hx. destruct (elem_le x Hx). assert (0 <= avg l).
      { unfold avg. rewrite total_Z. fold S. fold n. apply Rmult_le_pos; [lra|left; now apply Rinv_0_lt_compat]. }
      apply Rabs_le. lra.
    - rewrite total_plus, total_const, total_Z. unfold avg. rewrite total_Z. fold S. fold n.
      replace (INR n * (S / INR n)) with S by (field; lra). lra.
  Qed.

  Hypothesis Hsz : (2 * sumZ l < 2 ^ 53)%Z.
  Hypothesis Hn : (Z.of_nat (length l) <= 2 ^ 53)%Z.

  Lemma zmean64 : is_finite (zmean (V:=f64) l) = true /\ lclose (2 * u53) (B2R (zmean (V:=f64) l)) (avg l) /\
    bpow radix2 (-53) <= avg l <= bpow radix2 53.
  Proof.
    pose proof n_pos as Pn. apply lt_0_INR in Pn. pose proof S_ge1 as PS.
    destruct (f64_ofZ_exact (sumZ l)) as (E1 & F1); [lia|]. destruct (nofnat64 n Hn) as (F2 & E2).
    assert (In_ : 1 <= INR n <= bpow radix2 53).
    { split; [change 1 with (INR 1); apply le_INR; pose proof n_pos; lia|]. rewrite INR_IZR_INZ. change (bpow radix2 53) with (IZR (2 ^ 53)). now apply IZR_le. }
    assert (Sb : S <= bpow radix2 53) by (change (bpow radix2 53) with (IZR (2 ^ 53)); apply IZR_le; lia).
    assert (B : bpow radix2 (-53) <= avg l <= bpow radix2 53).
    { unfold avg. rewrite total_Z. fold S n. change (-53)%Z with (- (53))%Z. rewrite bpow_opp. unfold Rdiv. split.
      - rewrite <- (Rmult_1_l (/ bpow radix2 53)). apply Rmult_le_compat; try lra; [left; apply Rinv_0_lt_compat, bpow_gt_0|apply Rinv_le; lra].
      - rewrite <- (Rmult_1_r (bpow radix2 53)). apply Rmult_le_compat; try lra; [left; apply Rinv_0_lt_compat; lra|rewrite <- Rinv_1; apply Rinv_le; lra]. }
    unfold zmean. cbn [nofZ Num_f64].
    assert (Ea : B2R (f64_ofZ (sumZ l)) / B2R (nofnat (V:=f64) n) = avg l).
    { rewrite E1, E2. unfold avg. now rewrite total_Z. }
    destruct (div64 (f64_ofZ (sumZ l)) (nofnat n)) as (F & C).
    - exact F1.
    - rewrite E2. lra.
    - rewrite Ea. pose proof (bpow_le radix2 (-1022) (-53) ltac:(lia)). pose proof (bpow_le radix2 53 1023 ltac:(lia)). lra.
    - rewrite Ea in C. split; [exact F|]. split; [exact C|exact B].
  Qed.

  Variables (eps : R) (vsum : list f64 -> f64).
  Hypothesis He : bpow radix2 (-53) <= eps <= bpow radix2 (-20).
  Hypothesis Hs : sum_close eps (length l) vsum.

  Lemma hood64 : nisfin (hood_index vsum l) = true /\ Rabs (B2R (hood_index vsum l) - robin_hood l) <= 6 * eps.
  Proof.
    pose proof n_pos as Pn0. assert (Pn : 0 < INR n) by now apply lt_0_INR. pose proof S_ge1 as PS. pose proof u53_pos as Pu.
    assert (Ue : u53 <= eps) by exact (proj1 He).
    assert (E20 : eps <= / 1000000).
    { apply Rle_trans with (1 := proj2 He). change (bpow radix2 (-20)) with (/ IZR (2 ^ 20)). change (2 ^ 20)%Z with 1048576%Z. lra. }
    assert (Ut : tiny <= / 1000 * u53).
    { unfold tiny, u53. pose proof (bpow_le radix2 (-1000) (-63) ltac:(lia)) as A. assert (B : bpow radix2 (-63) = bpow radix2 (-53) * bpow radix2 (-10)) by (rewrite <- bpow_plus; reflexivity).
      change (bpow radix2 (-10)) with (/ 1024) in B. pose proof (bpow_gt_0 radix2 (-53)). lra. }
    assert (Pt : 0 < tiny) by apply bpow_gt_0.
    assert (Sb : S <= bpow radix2 53) by (change (bpow radix2 53) with (IZR (2 ^ 53)); apply IZR_le; lia).
    destruct zmean64 as (Fm & Cm & Bm). set (mu := avg l) in *. set (m := B2R (zmean (V:=f64) l)) in *.
    assert (Emu : INR n * mu = S) by (unfold mu, avg; rewrite total_Z; fold S n; field; lra).
    assert (Am : Rabs (m - mu) <= 1.02 * (2 * u53) * mu) by (apply lclose_abs; [exact Cm|lra]).
    assert (Pmu : 0 < mu) by (pose proof (bpow_gt_0 radix2 (-53)); lra).
    set (d := fun x : Z => vabs (nsub (nofZ x) (zmean (V:=f64) l))).
    assert (D : forall x, In x l -> is_finite (d x) = true /\ 0 <= B2R (d x) <= bpow radix2 300 /\
       Rabs (B2R (d x) - Rabs (IZR x - mu)) <= u53 * Rabs (IZR x - mu) + 2.05 * u53 * mu).
    { intros x Hx. destruct (elem_le x Hx) as (X0 & X1). destruct (f64_ofZ_exact x) as (Ex & Fx).
      { apply le_IZR in X1. specialize (Hnn x Hx). lia. }
      assert (Big : 3 * bpow radix2 53 <= bpow radix2 300).
      { pose proof (bpow_le radix2 55 300 ltac:(lia)) as A. assert (B : bpow radix2 55 = bpow radix2 53 * bpow radix2 2) by (rewrite <- bpow_plus; reflexivity).
        change (bpow radix2 2) with 4 in B. pose proof (bpow_gt_0 radix2 53). lra. }
      pose proof (bpow_le radix2 300 1000 ltac:(lia)) as Big2.
      apply Rabs_le_inv in Am. assert (Bm' : 0 <= m <= 1.1 * bpow radix2 53) by nra. pose proof (bpow_gt_0 radix2 53) as P53.
      destruct (sub64 (f64_ofZ x) (zmean (V:=f64) l)) as (Fd & e & Hee & Ed); [exact Fx|exact Fm|rewrite Ex, Rabs_pos_eq; lra|fold m; rewrite Rabs_pos_eq; lra|].
      rewrite Ex in Ed. fold m in Ed. destruct (vabs64 _ Fd) as (Fa & Ea). unfold d. cbn [nofZ Num_f64]. split; [exact Fa|]. rewrite Ea, Ed, Rabs_mult.
      assert (K : Rabs (1 + e) = 1 + e) by (apply Rabs_le_inv in Hee; apply Rabs_pos_eq; lra). rewrite K.
      apply Rabs_le_inv in Hee. pose proof (Rabs_pos (IZR x - m)) as P1.
      assert (T1 : Rabs (IZR x - m) <= 1.1 * bpow radix2 53) by (apply Rabs_le; lra).
      split; [split; [nra|nra]|].
      assert (T2 : Rabs (Rabs (IZR x - m) - Rabs (IZR x - mu)) <= 2.04 * u53 * mu).
      { eapply Rle_trans; [apply Rabs_triang_inv2|]. replace (IZR x - m - (IZR x - mu)) with (- (m - mu)) by ring. rewrite Rabs_Ropp. apply Rabs_le. lra. }
      apply Rabs_le_inv in T2. pose proof (Rabs_pos (IZR x - mu)) as P2. apply Rabs_le.
      assert (N : 0 <= u53 * mu) by (apply Rmult_le_pos; lra).
      assert (N2 : Rabs (IZR x - m) * e <= Rabs (IZR x - m) * u53) by (apply Rmult_le_compat_l; lra).
      assert (N3 : - (Rabs (IZR x - m) * u53) <= Rabs (IZR x - m) * e) by nra.
      assert (N4 : Rabs (IZR x - m) * u53 <= (Rabs (IZR x - mu) + 2.04 * u53 * mu) * u53) by (apply Rmult_le_compat_r; lra).
      assert (N5 : 2.04 * u53 * mu * u53 <= 0.01 * u53 * mu) by nra.
      lra. }
    set (A := total (map (fun x => Rabs (IZR x - mu)) l)).
    assert (A0 : 0 <= A).
    { unfold A. rewrite <- (Rmult_0_r (INR (length l))). rewrite <- (total_const 0 l). apply total_le. intros; apply Rabs_pos. }
    assert (A2 : A <= 2 * S) by apply dev_le.
    set (B := total (map (fun x => B2R (d x)) l)).
    assert (BA : Rabs (B - A) <= u53 * A + 2.05 * u53 * S).
    { eapply Rle_trans; [apply total_abs|]. eapply Rle_trans; [apply total_le; intros x Hx; apply (D x Hx)|].
      rewrite total_plus, total_scale, total_const. fold A. fold n. replace (INR n * (2.05 * u53 * mu)) with (2.05 * u53 * (INR n * mu)) by ring. rewrite Emu. lra. }
    destruct (Hs (map d l)) as (FT & BT).
    { rewrite map_length. apply le_n. }
    { intros y Hy. apply in_map_iff in Hy as (x & <- & Hx). destruct (D x Hx) as (F & (P1 & P2) & _). split; [exact F|]. now rewrite Rabs_pos_eq. }
    rewrite !map_map in BT. fold B in BT.
    assert (EB : total (map (fun x => Rabs (B2R (d x))) l) = B).
    { apply total_ext. intros x Hx. apply Rabs_pos_eq, (D x Hx). }
    rewrite EB in BT. set (T := vsum (map d l)) in *.
    assert (UA : u53 * A <= 2 * (u53 * S)) by nra. assert (US : u53 * S <= / 1000000 * S) by nra. assert (ES : u53 * S <= eps * S) by (apply Rmult_le_compat_r; lra).
    assert (BB : 0 <= B <= 2.01 * S).
    { split; [unfold B; rewrite <- (Rmult_0_r (INR (length l))), <- (total_const 0 l); apply total_le; intros x Hx; apply (D x Hx)|]. apply Rabs_le_inv in BA. lra. }
    assert (EB2 : eps * B <= 2.01 * (eps * S)) by nra.
    assert (TA : Rabs (B2R T - A) <= 6.1 * (eps * S)).
    { apply Rabs_le_inv in BA, BT. apply Rabs_le. lra. }
    assert (ES2 : eps * S <= / 1000000 * S) by (apply Rmult_le_compat_r; lra).
    assert (TB : Rabs (B2R T) <= 2.1 * S) by (apply Rabs_le_inv in TA; apply Rabs_le; lra).
    (* half *)
    destruct n1_f64 as (E1 & F1). destruct (f64_ofZ_exact 2) as (E2 & F2); [lia|].
    set (half := ndiv (V:=f64) n1 (nofZ 2)).
    assert (Fh : is_finite half = true) by (vm_compute; reflexivity).
    assert (Eh : B2R half = / 2).
    { rewrite <- (SF2R_B2SF 53 1024 half). replace (B2SF half) with (SpecFloat.S754_finite false 4503599627370496 (-53)) by (vm_compute; reflexivity).
      cbn [SF2R]. unfold F2R. cbn [Fnum Fexp cond_Zopp]. change (bpow radix2 (-53)) with (/ IZR (2 ^ 53)). change (2 ^ 53)%Z with 9007199254740992%Z. lra. }
    assert (Lim : 3 * S <= bpow radix2 1000).
    { pose proof (bpow_le radix2 55 1000 ltac:(lia)) as Q. assert (Q2 : bpow radix2 55 = bpow radix2 53 * bpow radix2 2) by (rewrite <- bpow_plus; reflexivity).
      change (bpow radix2 2) with 4 in Q2. lra. }
    assert (Lim2 : bpow radix2 1000 < bpow radix2 1024) by (apply bpow_lt; lia).
    pose proof (rnd_any (B2R half * B2R T)) as R1. rewrite Eh in R1. set (h0 := / 2 * B2R T) in *.
    assert (Bh0 : Rabs h0 <= 1.05 * S) by (unfold h0; rewrite Rabs_mult, Rabs_pos_eq by lra; lra).
    assert (R1' : Rabs (rnd h0 - h0) <= 1.06 * (u53 * S)) by nra.
    assert (Rh : Rabs (rnd h0) <= 1.1 * S).
    { apply Rabs_le_inv in R1', Bh0. apply Rabs_le. lra. }
    destruct (mul_cases half T Fh FT) as (_ & [(_ & Fq & Eq)|(Bad & _)]); [|rewrite Eh in Bad; fold h0 in Bad; lra].
    rewrite Eh in Eq. fold h0 in Eq. set (h := nmul half T) in *.
    (* quotient *)
    destruct (f64_ofZ_exact (sumZ l)) as (ES1 & FS1); [lia|]. fold S in ES1.
    pose proof (rnd_any (B2R h / S)) as R2. set (q := B2R h / S) in *.
    assert (Bq : Rabs q <= 1.1).
    { unfold q, Rdiv. rewrite Rabs_mult, (Rabs_pos_eq (/ S)) by (left; apply Rinv_0_lt_compat; lra). apply Rmult_le_reg_r with S; [lra|]. rewrite Rmult_assoc, Rinv_l, Rmult_1_r by lra. rewrite Eq. exact Rh. }
    assert (R2' : Rabs (rnd q - q) <= 1.2 * u53) by nra.
    destruct (div_cases h (f64_ofZ (sumZ l)) Fq) as (_ & [(_ & Fr & Er)|(Bad & _)]).
    { rewrite ES1. lra. }
    2:{ rewrite ES1 in Bad. fold q in Bad. exfalso. assert (Rabs (rnd q) <= 2) by (apply Rabs_le_inv in R2', Bq; apply Rabs_le; lra).
        pose proof (bpow_le radix2 1 1024 ltac:(lia)) as Q. pose proof (bpow_lt radix2 1 1024 ltac:(lia)) as Q'. change (bpow radix2 1) with 2 in *. lra. }
    rewrite ES1 in Er. fold q in Er.
    unfold hood_index. cbn [nofZ Num_f64]. change (map (fun x => vabs (nsub (f64_ofZ x) (zmean l))) l) with (map d l). fold T.
    change (ndiv n1 (f64_ofZ 2)) with half. fold h. split; [exact Fr|]. rewrite Er.
    assert (Eh2 : robin_hood l = A / (2 * S)) by (unfold robin_hood; fold mu; now rewrite total_Z). rewrite Eh2.
    assert (Q : q - A / (2 * S) = ((rnd h0 - h0) + / 2 * (B2R T - A)) / S).
    { unfold q. rewrite Eq. unfold h0. field. lra. }
    assert (Q' : Rabs (q - A / (2 * S)) <= 4.2 * eps).
    { rewrite Q. unfold Rdiv. rewrite Rabs_mult, (Rabs_pos_eq (/ S)) by (left; apply Rinv_0_lt_compat; lra).
      apply Rmult_le_reg_r with S; [lra|]. rewrite Rmult_assoc, Rinv_l, Rmult_1_r by lra.
      eapply Rle_trans; [apply Rabs_triang|]. rewrite Rabs_mult, (Rabs_pos_eq (/ 2)) by lra. pose proof (Rabs_pos (B2R T - A)). change (Rabs (rnd h0 - h0) + / 2 * Rabs (B2R T - A) <= 4.2 * eps * S). lra. }
    apply Rabs_le_inv in Q', R2'. apply Rabs_le. lra.
  Qed.
End Occ.

(** ** The mean is a whole number *)
Lemma whole_ofZ z : (Z.abs z < 2 ^ 53)%Z -> whole (nofZ (V:=f64) z) z.
Proof. intros H. destruct (f64_ofZ_exact z) as (E & F); [lia|]. split; [exact F|exact E]. Qed.
Lemma whole_vabs x z : whole x z -> whole (vabs x) (Z.abs z).
Proof. intros (F & E). destruct (vabs64 x F) as (F' & E'). split; [exact F'|]. now rewrite E', E, abs_IZR. Qed.
Lemma half_exact A : (Z.abs A < 2 ^ 53)%Z -> rnd (/ 2 * IZR A) = / 2 * IZR A.
Proof.
  intros H. apply rnd_gen. apply generic_format_FLT. exists (Float radix2 A (-1)); [|exact H|cbn; lia].
  unfold F2R. cbn [Fnum Fexp]. change (bpow radix2 (-1)) with (/ 2). ring.
Qed.
Lemma half64 : is_finite (ndiv (V:=f64) n1 (nofZ 2)) = true /\ B2R (ndiv (V:=f64) n1 (nofZ 2)) = / 2.
Proof.
  split; [vm_compute; reflexivity|]. set (half := ndiv n1 (nofZ 2)).
  rewrite <- (SF2R_B2SF 53 1024 half). replace (B2SF half) with (SpecFloat.S754_finite false 4503599627370496 (-53)) by (vm_compute; reflexivity).
  cbn [SF2R]. unfold F2R. cbn [Fnum Fexp cond_Zopp]. change (bpow radix2 (-53)) with (/ IZR (2 ^ 53)). change (2 ^ 53)%Z with 9007199254740992%Z. lra.
Qed.

Definition zdev (m : Z) (l : list Z) : Z := ztotal (map (fun x => Z.abs (x - m)) l).
Lemma sumZ_ztotal l : sumZ l = ztotal l.
Proof. now rewrite <- fold_right_sumZ. Qed.

Lemma zdev_zero m l : zdev m l = 0%Z -> forall x, In x l -> x = m.
Proof.
  unfold zdev. induction l as [|a l IH]; [contradiction|]. cbn. fold (ztotal (map (fun x => Z.abs (x - m)) l)). intros H.
  assert (P : (0 <= ztotal (map (fun x => Z.abs (x - m)) l))%Z).
  { clear. induction l as [|a l IH]; cbn; [lia|]. fold (ztotal (map (fun x => Z.abs (x - m)) l)). lia. }
  intros x [->|Hx]; [lia|]. apply IH; [lia|exact Hx].
Qed.
Lemma zdev_nonneg m l : (0 <= zdev m l)%Z.
Proof. unfold zdev. induction l as [|a l IH]; cbn; [lia|]. fold (ztotal (map (fun x => Z.abs (x - m)) l)). lia. Qed.
(** some element reaches the mean *)
Lemma zdev_lt m l : (forall x, In x l -> (0 <= x)%Z) -> (0 < m)%Z -> (ztotal l = Z.of_nat (length l) * m)%Z -> (0 < ztotal l)%Z ->
  (zdev m l + 2 <= 2 * ztotal l)%Z.
Proof.
  intros Hnn Pm E Pos.
  set (lo := ztotal (map (fun x => Z.min x m) l)).
  assert (D : (zdev m l = ztotal l + Z.of_nat (length l) * m - 2 * lo)%Z).
  { unfold zdev, lo. clear. induction l as [|a l IH]; cbn [map ztotal fold_right length]; [lia|].
    fold (ztotal l) (ztotal (map (fun x => Z.abs (x - m)) l)) (ztotal (map (fun x => Z.min x m) l)). lia. }
  assert (L : (1 <= lo)%Z); [|lia].
  assert (N : forall l', (forall x, In x l' -> (0 <= x)%Z) -> (0 <= ztotal (map (fun x => Z.min x m) l') /\ (0 < ztotal l' -> 1 <= ztotal (map (fun x => Z.min x m) l')))%Z).
  { clear -Pm. induction l' as [|a l' IH]; intros H; cbn; [lia|]. fold (ztotal l') (ztotal (map (fun x => Z.min x m) l')).
    assert (0 <= a)%Z by (apply H; now left). destruct IH as (I1 & I2); [intros; apply H; now right|]. split; [lia|]. intros.
    assert (K : (0 < a \/ 0 < ztotal l')%Z) by lia. destruct K as [K|K]; [lia|]. specialize (I2 K). lia. }
  now apply N.
Qed.

Lemma Forall2_maps {A B C} (P : B -> C -> Prop) (f : A -> B) (g : A -> C) l : (forall x, In x l -> P (f x) (g x)) -> Forall2 P (map f l) (map g l).
Proof. induction l as [|a l IH]; intros H; constructor; [apply H; now left|apply IH; intros; apply H; now right]. Qed.

Section Whole.
  Variables (l : list Z) (m : Z) (vsum : list f64 -> f64).
  Hypothesis Hnn : forall x, In x l -> (0 <= x)%Z.
  Hypothesis Hpos : (0 < sumZ l)%Z.
  Hypothesis Hm : (sumZ l = Z.of_nat (length l) * m)%Z.
  Hypothesis Hsz : (2 * sumZ l < 2 ^ 53)%Z.
  Hypothesis Hs : sum_exact vsum.

  Lemma m_pos : (0 < m <= sumZ l)%Z.
  Proof.
    pose proof (Nat2Z.is_nonneg (length l)) as Hn0. assert (P : (0 < m)%Z) by nia. split; [exact P|].
    assert (N : (1 <= Z.of_nat (length l))%Z) by nia. rewrite Hm. nia.
  Qed.
  Lemma len_le : (0 < Z.of_nat (length l) <= sumZ l)%Z.
  Proof. pose proof m_pos. nia. Qed.
  Lemma avg_whole : avg l = IZR m.
  Proof. unfold avg. rewrite total_Z, Hm, mult_IZR, <- INR_IZR_INZ. pose proof len_le. field. apply not_0_INR. lia. Qed.
  Lemma robin_whole : robin_hood l = IZR (zdev m l) / IZR (2 * sumZ l).
  Proof.
    unfold robin_hood. rewrite avg_whole, total_Z, (mult_IZR 2). f_equal. unfold zdev.
    clear. induction l as [|b k IH]; cbn; [reflexivity|].
    fold (total (map (fun x => Rabs (IZR x - IZR m)) k)) (ztotal (map (fun x => Z.abs (x - m)) k)). rewrite plus_IZR, <- IH, abs_IZR, minus_IZR. reflexivity.
  Qed.
  Lemma hood_whole : nisfin (hood_index vsum l) = true /\ B2R (hood_index vsum l) = rnd (robin_hood l).
  Proof.
    pose proof m_pos as Pm. pose proof len_le as Pn. pose proof (zdev_nonneg m l) as P0.
    assert (P1 : (zdev m l + 2 <= 2 * sumZ l)%Z) by (rewrite sumZ_ztotal; apply zdev_lt; rewrite <- ?sumZ_ztotal; auto; lia).
    assert (Wm : whole (zmean (V:=f64) l) m).
    { unfold zmean. destruct (whole_div (nofZ (sumZ l)) (nofnat (length l)) (sumZ l) (Z.of_nat (length l))) as (F & E); [apply whole_ofZ; lia|apply whole_ofZ; lia|lia|lia|].
      split; [exact F|]. rewrite E, Hm, mult_IZR. replace (IZR (Z.of_nat (length l)) * IZR m / IZR (Z.of_nat (length l))) with (IZR m); [apply rnd_Z; lia|].
      field. apply IZR_neq. lia. }
    assert (Wd : Forall2 whole (map (fun x => vabs (nsub (nofZ x) (zmean (V:=f64) l))) l) (map (fun x => Z.abs (x - m)) l)).
    { assert (G : forall x, In x l -> (0 <= x <= sumZ l)%Z).
      { intros x Hx. destruct (elem_le l Hnn x Hx). split; apply le_IZR; assumption. }
      apply Forall2_maps. intros x Hx. specialize (G x Hx). apply whole_vabs, whole_sub; [apply whole_ofZ; lia|exact Wm|lia]. }
    destruct (Hs _ _ Wd) as (FT & ET).
    { rewrite map_map. rewrite (map_ext _ (fun x => Z.abs (x - m))) by (intros; lia). fold (zdev m l). lia. }
    fold (zdev m l) in ET. set (T := vsum _) in *. destruct half64 as (Fh & Eh).
    unfold hood_index. fold T. set (half := ndiv n1 (nofZ 2)) in *.
    assert (Sm : Rabs (/ 2 * IZR (zdev m l)) < bpow radix2 1024).
    { rewrite Rabs_pos_eq. 2:{ apply Rmult_le_pos; [lra|]. now apply IZR_le. }
      assert (IZR (zdev m l) <= bpow radix2 53) by (change (bpow radix2 53) with (IZR (2 ^ 53)); apply IZR_le; lia).
      pose proof (bpow_lt radix2 53 1024 ltac:(lia)). pose proof (bpow_gt_0 radix2 53). lra. }
    destruct (mul_cases half T Fh FT) as (_ & [(_ & Fq & Eq)|(Bad & _)]); rewrite Eh, ET, half_exact in * by lia; [|lra].
    destruct (f64_ofZ_exact (sumZ l)) as (ES1 & FS1); [lia|].
    assert (PS : 0 < IZR (sumZ l)) by (now apply IZR_lt).
    assert (Q : / 2 * IZR (zdev m l) / IZR (sumZ l) = robin_hood l) by (rewrite robin_whole, (mult_IZR 2); field; lra).
    destruct (div_cases (nmul half T) (f64_ofZ (sumZ l)) Fq) as (_ & [(_ & Fr & Er)|(Bad & _)]).
    { rewrite ES1. lra. }
    { rewrite ES1, Eq, Q in Er. split; [exact Fr|exact Er]. }
    rewrite ES1, Eq, Q, robin_whole in Bad. exfalso.
    assert (U : 0 <= IZR (zdev m l) / IZR (2 * sumZ l) <= 1).
    { assert (0 < IZR (2 * sumZ l)) by (apply IZR_lt; lia). split; [apply Rmult_le_pos; [now apply IZR_le|left; now apply Rinv_0_lt_compat]|].
      apply Rmult_le_reg_r with (IZR (2 * sumZ l)); [assumption|]. unfold Rdiv. rewrite Rmult_assoc, Rinv_l, Rmult_1_r, Rmult_1_l by lra. apply IZR_le. lia. }
    apply rnd_unit in U. rewrite Rabs_pos_eq in Bad by lra. pose proof (bpow_lt radix2 0 1024 ltac:(lia)). change (bpow radix2 0) with 1 in *. lra.
  Qed.
End Whole.

(** the rounded index: below 1, and 0 exactly for equal numbers *)
Lemma robin_bounds l m : (forall x, In x l -> (0 <= x)%Z) -> (0 < sumZ l)%Z -> (sumZ l = Z.of_nat (length l) * m)%Z -> (2 * sumZ l < 2 ^ 53)%Z ->
  0 <= robin_hood l <= 1 - bpow radix2 (-53) /\ (robin_hood l = 0 \/ bpow radix2 (-53) <= robin_hood l) /\
  (robin_hood l = 0 <-> forall x y, In x l -> In y l -> x = y).
Proof.
  intros Hnn Hpos Hm Hsz. pose proof (m_pos l m Hpos Hm Hsz) as Pm. pose proof (len_le l m Hpos Hm Hsz) as Pn. pose proof (zdev_nonneg m l) as P0.
  assert (P1 : (zdev m l + 2 <= 2 * sumZ l)%Z) by (rewrite sumZ_ztotal; apply zdev_lt; rewrite <- ?sumZ_ztotal; auto; lia).
  rewrite (robin_whole l m Hpos Hm Hsz). set (B := (2 * sumZ l)%Z) in *. set (A := zdev m l) in *.
  assert (PB : 0 < IZR B) by (apply IZR_lt; lia). assert (PI : 0 < / IZR B) by now apply Rinv_0_lt_compat.
  assert (Bb : bpow radix2 (-53) <= / IZR B).
  { change (-53)%Z with (- (53))%Z. rewrite bpow_opp. apply Rinv_le; [exact PB|]. change (bpow radix2 53) with (IZR (2 ^ 53)). apply IZR_le. lia. }
  assert (A0 : 0 <= IZR A) by now apply IZR_le.
  assert (A1 : IZR A + 1 <= IZR B) by (rewrite <- plus_IZR; apply IZR_le; lia).
  split; [split|split].
  - apply Rmult_le_pos; lra.
  - apply Rle_trans with (1 - / IZR B); [|lra]. apply Rmult_le_reg_r with (IZR B); [exact PB|]. unfold Rdiv.
    rewrite Rmult_assoc, Rinv_l, Rmult_1_r by lra. rewrite Rmult_minus_distr_r, Rinv_l by lra. lra.
  - destruct (Z.eq_dec A 0) as [->|N]; [left; unfold Rdiv; ring|right]. assert (1 <= IZR A) by (apply IZR_le; lia). unfold Rdiv. nra.
  - split.
    + intros E. assert (Z0 : IZR A = 0) by (replace (IZR A) with (IZR A / IZR B * IZR B) by (field; lra); rewrite E; ring).
      apply eq_IZR in Z0. intros x y Hx Hy. now rewrite (zdev_zero m l Z0 x Hx), (zdev_zero m l Z0 y Hy).
    + intros E. destruct l as [|c l']; [cbn in Hpos; lia|]. assert (All : forall x, In x (c :: l') -> x = c) by (intros; apply E; [assumption|now left]).
      assert (Sc : (sumZ (c :: l') = Z.of_nat (length (c :: l')) * c)%Z).
      { rewrite <- fold_right_sumZ. clear -All. revert All. generalize (c :: l'). intros k0 All. induction k0 as [|a k IH]; [reflexivity|]. cbn [fold_right length]. rewrite IH by (intros; apply All; now right).
        rewrite (All a) by now left. rewrite Nat2Z.inj_succ. ring. }
      assert (Ec : c = m) by nia. assert (Z0 : A = 0%Z).
      { unfold A, zdev. clear -All Ec. revert All. generalize (c :: l'). intros k0 All. induction k0 as [|a k IH]; [reflexivity|]. cbn. fold (ztotal (map (fun x => Z.abs (x - m)) k)).
        rewrite IH by (intros; apply All; now right). rewrite (All a) by now left. lia. }
      rewrite Z0. unfold Rdiv. ring.
Qed.

(** ** Atkinson index *)
Definition root4 (x : Z) : R := sqrt (sqrt (IZR x)).
Lemma sqrt_below y b : 0 <= y -> 1 <= b -> y <= b -> sqrt y <= b.
Proof.
  intros P B L. apply Rle_trans with (sqrt b); [apply sqrt_le_1_alt, L|]. rewrite <- (sqrt_square b) at 2 by lra. apply sqrt_le_1_alt. nra.
Qed.
Lemma root4_pow x : (0 <= x)%Z -> root4 x ^ 4 = IZR x.
Proof.
  intros H. apply IZR_le in H. unfold root4. replace (sqrt (sqrt (IZR x)) ^ 4) with ((sqrt (sqrt (IZR x)) * sqrt (sqrt (IZR x))) * (sqrt (sqrt (IZR x)) * sqrt (sqrt (IZR x)))) by ring.
  rewrite sqrt_sqrt by apply sqrt_pos. now apply sqrt_sqrt.
Qed.
Lemma root4_ge1 x : (1 <= x)%Z -> 1 <= root4 x.
Proof.
  intros H. apply IZR_le in H. unfold root4. rewrite <- sqrt_1. apply sqrt_le_1_alt. rewrite <- sqrt_1. now apply sqrt_le_1_alt.
Qed.
Lemma roots_ge1 l : (forall x, In x l -> (0 <= x)%Z) -> 0 <= total (map root4 l) /\ ((0 < sumZ l)%Z -> 1 <= total (map root4 l)).
Proof.
  induction l as [|a l IH]; intros H; [cbn; split; [lra|intros K; cbn in K; lia]|].
  destruct IH as (I1 & I2); [intros; apply H; now right|]. change (total (map root4 (a :: l))) with (root4 a + total (map root4 l)). assert (R0 : 0 <= root4 a) by apply sqrt_pos.
  split; [lra|]. rewrite sumZ_cons. intros K. assert (0 <= a)%Z by (apply H; now left).
  assert (C : (1 <= a \/ 0 < sumZ l)%Z) by lia. destruct C as [C|C]; [pose proof (root4_ge1 a C); lra|specialize (I2 C); lra].
Qed.

Lemma mean_square {A} (f : A -> R) l : (0 < length l)%nat ->
  (total (map f l) / INR (length l)) ^ 2 <= total (map (fun a => f a ^ 2) l) / INR (length l).
Proof.
  intros H. apply lt_0_INR in H. set (n := INR (length l)) in *. set (s := total (map f l)).
  assert (E : 0 <= total (map (fun a => (f a - s / n) ^ 2) l)).
  { rewrite <- (Rmult_0_r (INR (length l))), <- (total_const 0 l). apply total_le. intros a _. apply pow2_ge_0. }
  rewrite (total_ext _ (fun a => (f a ^ 2 + (- 2 * (s / n)) * f a) + (s / n) ^ 2)) in E by (intros; ring).
  rewrite total_plus, total_plus, total_scale, total_const in E. fold s in E. fold n in E.
  apply Rmult_le_reg_r with n; [exact H|]. replace (total (map (fun a => f a ^ 2) l) / n * n) with (total (map (fun a => f a ^ 2) l)) by (field; lra).
  replace ((s / n) ^ 2 * n) with (2 * (s / n) * s - n * (s / n) ^ 2) by (field; lra). lra.
Qed.

Section Atk.
  Variable l : list Z.
  Hypothesis Hnn : forall x, In x l -> (0 <= x)%Z.
  Hypothesis Hpos : (0 < sumZ l)%Z.
  Hypothesis Hsz : (2 * sumZ l < 2 ^ 53)%Z.
  Hypothesis Hn : (Z.of_nat (length l) <= 2 ^ 53)%Z.
  Variables (eps : R) (vsum : list f64 -> f64) (vpow : f64 -> f64 -> f64).
  Hypothesis He : bpow radix2 (-53) <= eps <= bpow radix2 (-20).
  Hypothesis Hs : sum_close eps (length l) vsum.
  Hypothesis Hp : pow_close eps vpow.
  Let n := length l.
  Let T := total (map root4 l).

  Lemma atk_mean : (T / INR n) ^ 4 <= avg l.
  Proof.
    pose proof (n_pos l Hnn Hpos) as Pn. fold n in Pn.
    pose proof (mean_square root4 l Pn) as M1. pose proof (mean_square (fun x => root4 x ^ 2) l Pn) as M2. fold n in M1, M2. fold T in M1.
    replace ((T / INR n) ^ 4) with (((T / INR n) ^ 2) ^ 2) by ring.
    apply Rle_trans with ((total (map (fun x => root4 x ^ 2) l) / INR n) ^ 2).
    - apply pow_incr. split; [apply pow2_ge_0|exact M1].
    - apply Rle_trans with (1 := M2). unfold avg. fold n. rewrite (total_ext (fun a => (root4 a ^ 2) ^ 2) IZR); [lra|].
      intros x Hx. replace ((root4 x ^ 2) ^ 2) with (root4 x ^ 4) by ring. apply root4_pow, Hnn, Hx.
  Qed.

  Lemma atkinson64 : let A := atkinson_index vsum vpow (ndiv (nofZ 3) (nofZ 4)) l in
    nisfin A = true /\ Rabs (B2R A - atkinson l) <= 36 * eps.
  Proof.
    pose proof (n_pos l Hnn Hpos) as Pn0. fold n in Pn0. assert (Pn : 0 < INR n) by now apply lt_0_INR. pose proof u53_pos as Pu.
    assert (Ue : u53 <= eps) by exact (proj1 He).
    assert (E20 : eps <= / 1000000).
    { apply Rle_trans with (1 := proj2 He). change (bpow radix2 (-20)) with (/ IZR (2 ^ 20)). change (2 ^ 20)%Z with 1048576%Z. lra. }
    set (e := nsub (V:=f64) n1 (ndiv (nofZ 3) (nofZ 4))). set (e' := ndiv (V:=f64) n1 e).
    assert (Fe : nisfin e = true) by (vm_compute; reflexivity). assert (Fe' : nisfin e' = true) by (vm_compute; reflexivity).
    assert (Ee : B2R e = / 4).
    { rewrite <- (SF2R_B2SF 53 1024 e). replace (B2SF e) with (SpecFloat.S754_finite false 4503599627370496 (-54)) by (vm_compute; reflexivity).
      cbn [SF2R]. unfold F2R. cbn [Fnum Fexp cond_Zopp]. change (bpow radix2 (-54)) with (/ IZR (2 ^ 54)). change (2 ^ 54)%Z with 18014398509481984%Z. lra. }
    assert (Ee' : B2R e' = 4).
    { rewrite <- (SF2R_B2SF 53 1024 e'). replace (B2SF e') with (SpecFloat.S754_finite false 4503599627370496 (-50)) by (vm_compute; reflexivity).
      cbn [SF2R]. unfold F2R. cbn [Fnum Fexp cond_Zopp]. change (bpow radix2 (-50)) with (/ IZR (2 ^ 50)). change (2 ^ 50)%Z with 1125899906842624%Z. lra. }
    set (p := fun x : Z => vpow (nofZ x) e).
    assert (P53 : 1 <= bpow radix2 53) by (apply (bpow_le radix2 0 53); lia).
    assert (D : forall x, In x l -> nisfin (p x) = true /\ Rabs (B2R (p x) - root4 x) <= eps * root4 x /\ 0 <= root4 x <= bpow radix2 53).
    { intros x Hx. destruct (elem_le l Hnn x Hx) as (X0 & X1). assert (Xb : IZR x <= bpow radix2 53).
      { change (bpow radix2 53) with (IZR (2 ^ 53)). apply Rle_trans with (1 := X1). apply IZR_le. lia. }
      apply le_IZR in X1. destruct (f64_ofZ_exact x) as (Ex & Fx); [specialize (Hnn x Hx); lia|].
      destruct (proj1 Hp (f64_ofZ x) e Fx) as (F & B); [rewrite Ex; lra|exact Fe|exact Ee|]. rewrite Ex in B. split; [exact F|]. split; [exact B|].
      split; [apply sqrt_pos|]. apply sqrt_below; [apply sqrt_pos|exact P53|]. now apply sqrt_below. }
    destruct (roots_ge1 l Hnn) as (T0 & T1). specialize (T1 Hpos). fold T in T0, T1.
    assert (TU : T <= INR n * bpow radix2 53).
    { unfold T. apply Rle_trans with (total (map (fun _ => bpow radix2 53) l)); [apply total_le; intros x Hx; apply (D x Hx)|]. rewrite total_const. apply Rle_refl. }
    destruct (Hs (map p l)) as (FT & BT).
    { rewrite map_length. apply le_n. }
    { intros y Hy. apply in_map_iff in Hy as (x & <- & Hx). destruct (D x Hx) as (F & B & R0). split; [exact F|].
      assert (Q : bpow radix2 53 * bpow radix2 1 <= bpow radix2 300) by (rewrite <- bpow_plus; apply bpow_le; lia). change (bpow radix2 1) with 2 in Q.
      apply Rabs_le_inv in B. apply Rabs_le. nra. }
    rewrite !map_map in BT. set (B := total (map (fun x => B2R (p x)) l)) in *.
    assert (BA : Rabs (B - T) <= eps * T).
    { eapply Rle_trans; [apply total_abs|]. eapply Rle_trans; [apply total_le; intros x Hx; apply (D x Hx)|]. rewrite total_scale. apply Rle_refl. }
    assert (BB : total (map (fun x => Rabs (B2R (p x))) l) <= (1 + eps) * T).
    { unfold T. rewrite <- total_scale. apply total_le. intros x Hx. destruct (D x Hx) as (_ & Q & R0). apply Rabs_le_inv in Q. apply Rabs_le. lra. }
    set (V := vsum (map p l)) in *.
    assert (VT : Rabs (B2R V - T) <= 2.1 * eps * T).
    { assert (Q : eps * total (map (fun x => Rabs (B2R (p x))) l) <= eps * ((1 + eps) * T)) by (apply Rmult_le_compat_l; lra).
      assert (Q2 : eps * (eps * T) <= 0.1 * (eps * T)) by (apply Rmult_le_compat_r; [apply Rmult_le_pos; lra|lra]).
      apply Rabs_le_inv in BA, BT. apply Rabs_le. lra. }
    assert (LV : lclose (4.2 * eps) (B2R V) T).
    { replace (4.2 * eps) with (2 * (2.1 * eps)) by lra. apply lclose_rel; [lra|lra|exact VT]. }
    destruct (nofnat64 n Hn) as (F2 & E2).
    assert (In_ : 1 <= INR n <= bpow radix2 53).
    { split; [change 1 with (INR 1); apply le_INR; lia|]. rewrite INR_IZR_INZ. change (bpow radix2 53) with (IZR (2 ^ 53)). now apply IZR_le. }
    set (M := T / INR n) in *.
    assert (BM : bpow radix2 (-53) <= M <= bpow radix2 53).
    { unfold M. split.
      - change (-53)%Z with (- (53))%Z. rewrite bpow_opp. unfold Rdiv. rewrite <- (Rmult_1_l (/ bpow radix2 53)).
        apply Rmult_le_compat; try lra; [left; apply Rinv_0_lt_compat, bpow_gt_0|apply Rinv_le; lra].
      - apply Rmult_le_reg_r with (INR n); [exact Pn|]. unfold Rdiv. rewrite Rmult_assoc, Rinv_l, Rmult_1_r by lra. lra. }
    assert (L1 : lclose (4.2 * eps) (B2R V / INR n) M).
    { replace (4.2 * eps) with (4.2 * eps + 0) by lra. apply lclose_div; [exact LV|apply lclose_refl; exact Pn]. }
    assert (R1 := lclose_range _ _ _ _ _ L1 BM ltac:(lra)). change (-53 - 1)%Z with (-54)%Z in R1. change (53 + 1)%Z with 54%Z in R1.
    destruct (div64 V (nofnat n) FT) as (Fm & Cm).
    { rewrite E2. lra. }
    { rewrite E2. pose proof (bpow_le radix2 (-1022) (-54) ltac:(lia)). pose proof (bpow_le radix2 54 1023 ltac:(lia)). lra. }
    rewrite E2 in Cm. set (m := ndiv V (nofnat n)) in *.
    assert (L2 : lclose (6.2 * eps) (B2R m) M).
    { apply lclose_weak with (2 * u53 + 4.2 * eps); [lra|]. now apply lclose_trans with (B2R V / INR n). }
    assert (R2 := lclose_range _ _ _ _ _ L2 BM ltac:(lra)). change (-53 - 1)%Z with (-54)%Z in R2. change (53 + 1)%Z with 54%Z in R2.
    destruct (proj2 Hp m e' Fm) as (Fq & Bq).
    { pose proof (bpow_le radix2 (-60) (-54) ltac:(lia)). pose proof (bpow_le radix2 54 60 ltac:(lia)). lra. }
    { exact Fe'. } { exact Ee'. }
    set (q := vpow m e') in *. assert (Pm : 0 < B2R m) by (pose proof (bpow_gt_0 radix2 (-54)); lra).
    assert (L3 : lclose (2 * eps) (B2R q) (B2R m ^ 4)) by (apply lclose_rel; [now apply pow_lt|lra|exact Bq]).
    assert (L4 : lclose (24.8 * eps) (B2R m ^ 4) (M ^ 4)).
    { replace (24.8 * eps) with ((6.2 * eps + 6.2 * eps) + (6.2 * eps + 6.2 * eps)) by lra.
      replace (B2R m ^ 4) with ((B2R m * B2R m) * (B2R m * B2R m)) by ring. replace (M ^ 4) with ((M * M) * (M * M)) by ring. repeat apply lclose_mul; exact L2. }
    assert (L5 : lclose (26.8 * eps) (B2R q) (M ^ 4)).
    { replace (26.8 * eps) with (2 * eps + 24.8 * eps) by lra. now apply lclose_trans with (B2R m ^ 4). }
    destruct (zmean64 l Hnn Hpos Hsz Hn) as (Fz & Cz & Bz). set (mu := avg l) in *. set (z := zmean (V:=f64) l) in *.
    assert (Rz := lclose_range _ _ _ _ _ Cz Bz ltac:(lra)). change (-53 - 1)%Z with (-54)%Z in Rz. change (53 + 1)%Z with 54%Z in Rz.
    destruct n1_f64 as (E1 & F1).
    assert (Inv : forall a x, (0 < a)%Z -> bpow radix2 (- a) <= x <= bpow radix2 a -> bpow radix2 (- a) <= 1 / x <= bpow radix2 a).
    { intros a x Ha (X1 & X2). pose proof (bpow_gt_0 radix2 (- a)). pose proof (bpow_gt_0 radix2 a). unfold Rdiv. rewrite Rmult_1_l. split.
      - rewrite bpow_opp. apply Rinv_le; lra.
      - replace a with (- - a)%Z at 1 by lia. rewrite (bpow_opp radix2 (- a)). apply Rinv_le; lra. }
    destruct (div64 n1 z F1) as (Fi & Ci).
    { pose proof (bpow_gt_0 radix2 (-54)). lra. }
    { rewrite E1. pose proof (Inv 54%Z (B2R z) ltac:(lia) Rz) as Q. pose proof (bpow_le radix2 (-1022) (-54) ltac:(lia)). pose proof (bpow_le radix2 54 1023 ltac:(lia)). cbn [Z.opp] in Q. lra. }
    rewrite E1 in Ci. set (i := ndiv n1 z) in *. assert (Pmu : 0 < mu) by (pose proof (bpow_gt_0 radix2 (-53)); lra).
    assert (L6 : lclose (4 * eps) (B2R i) (1 / mu)).
    { apply lclose_weak with (2 * u53 + (0 + 2 * u53)); [lra|]. apply lclose_trans with (1 / B2R z); [exact Ci|]. apply lclose_div; [apply lclose_refl; lra|exact Cz]. }
    assert (Bi := lclose_range _ _ _ _ _ L6 (Inv 53%Z mu ltac:(lia) Bz) ltac:(lra)).
    assert (B4 : bpow radix2 (-212) <= M ^ 4 <= bpow radix2 212).
    { replace (M ^ 4) with ((M * M) * (M * M)) by ring.
      replace (bpow radix2 (-212)) with ((bpow radix2 (-53) * bpow radix2 (-53)) * (bpow radix2 (-53) * bpow radix2 (-53))) by (rewrite <- !bpow_plus; reflexivity).
      replace (bpow radix2 212) with ((bpow radix2 53 * bpow radix2 53) * (bpow radix2 53 * bpow radix2 53)) by (rewrite <- !bpow_plus; reflexivity).
      pose proof (bpow_gt_0 radix2 (-53)). assert (0 <= bpow radix2 (-53) * bpow radix2 (-53)) by (apply Rmult_le_pos; lra). assert (0 <= M * M) by (apply Rmult_le_pos; lra).
      split; (apply Rmult_le_compat; [lra|lra|apply Rmult_le_compat; lra|apply Rmult_le_compat; lra]). }
    assert (Bq' := lclose_range _ _ _ _ _ L5 B4 ltac:(lra)).
    destruct (mul64 i q Fi Fq) as (Fr & Cr).
    { cbn [Z.opp] in Bi. change (-53 - 1)%Z with (-54)%Z in Bi. change (53 + 1)%Z with 54%Z in Bi. change (-212 - 1)%Z with (-213)%Z in Bq'. change (212 + 1)%Z with 213%Z in Bq'.
      pose proof (bpow_gt_0 radix2 (-54)). pose proof (bpow_gt_0 radix2 (-213)). split.
      - apply Rle_trans with (bpow radix2 (-54) * bpow radix2 (-213)); [rewrite <- bpow_plus; apply bpow_le; lia|apply Rmult_le_compat; lra].
      - apply Rle_trans with (bpow radix2 54 * bpow radix2 213); [apply Rmult_le_compat; lra|rewrite <- bpow_plus; apply bpow_le; lia]. }
    set (r := nmul i q) in *. set (a := 1 / mu * M ^ 4).
    assert (L7 : lclose (33 * eps) (B2R r) a).
    { apply lclose_weak with (2 * u53 + (4 * eps + 26.8 * eps)); [lra|]. apply lclose_trans with (B2R i * B2R q); [exact Cr|]. now apply lclose_mul. }
    assert (A1 : 0 < a <= 1).
    { split; [apply L7|]. unfold a. pose proof atk_mean as Q. fold M in Q. apply Rmult_le_reg_r with mu; [exact Pmu|]. replace (1 / mu * M ^ 4 * mu) with (M ^ 4) by (field; lra). fold mu in Q. lra. }
    assert (L8 := lclose_abs _ _ _ L7 ltac:(lra)).
    assert (L9 : Rabs (B2R r - a) <= 34 * eps) by nra.
    assert (P1000 : 2 <= bpow radix2 1000) by (change 2 with (bpow radix2 1) at 1; apply bpow_le; lia).
    apply Rabs_le_inv in L9.
    destruct (sub64 n1 r F1 Fr) as (Fo & d & Hd & Ed).
    { rewrite E1, Rabs_pos_eq; lra. } { apply Rabs_le. lra. }
    rewrite E1 in Ed. unfold atkinson_index. cbv zeta. fold e e' n. change (map (fun x => vpow (nofZ x) e) l) with (map p l). fold V m q z i r.
    split; [exact Fo|]. rewrite Ed.
    assert (Ea : atkinson l = 1 - a).
    { unfold atkinson, a. fold root4. fold mu. change (fun x => sqrt (sqrt (IZR x))) with root4. fold T n M. field. lra. }
    rewrite Ea. apply Rabs_le_inv in Hd.
    assert (K1 : - (1.1 * u53) <= (1 - B2R r) * d <= 1.1 * u53).
    { assert (K : Rabs ((1 - B2R r) * d) <= 1.1 * u53); [|now apply Rabs_le_inv].
      rewrite Rabs_mult. apply Rmult_le_compat; try apply Rabs_pos; apply Rabs_le; lra. }
    apply Rabs_le. lra.
  Qed.
End Atk.
