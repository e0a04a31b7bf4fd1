(** Property C150: how far local scaling in float64 is from its formula
    (local_scaling.py:167-169, 221-311). *)
From Coq Require Import String.
From Coq Require Import ZArith Reals Lra List Arith Lia Bool Permutation.
From Flocq Require Import Core BinarySingleNaN.
From Verif Require Import Py Num NumT Arr Sort Conc S_Neighbors S_LS M_IO M_Hubness M_SNN M_LS.
From Verif Require Import P_F64 S_LSFloat P_LSFloat Properties_LSFloat S_LSAcc P_LSAcc.
Import ListNotations.
Local Open Scope nat_scope.
Local Open Scope R_scope.

Lemma sub1_acc (e : f64) : nisfin e = true -> 0 <= B2R e <= 1 ->
  nisfin (nsub n1 e) = true /\ Rabs (B2R (nsub n1 e) - (1 - B2R e)) <= u53.
Proof.
  intros F H. destruct n1_f64 as (Z1 & F1). change (nsub n1 e) with (Bminus mode_NE (n1 (V:=f64)) e).
  pose proof (Bminus_correct 53 1024 prec53 emax1024 mode_NE (n1 (V:=f64)) e F1 F) as B. rewrite Z1 in B.
  fold (rnd (1 - B2R e)) in B. assert (U : 0 <= 1 - B2R e <= 1) by lra. pose proof (rnd_unit _ U) as RU.
  rewrite Rlt_bool_true in B by (rewrite Rabs_pos_eq by lra; pose proof bpow1024_big; lra).
  destruct B as (-> & F' & _). split; [exact F'|]. apply rnd_err. exact U.
Qed.

Lemma bpow_1022 : bpow radix2 (-1022) <= bpow radix2 (-1000).
Proof. apply bpow_le. lia. Qed.

Lemma ls_val_close vexp eps (d ri rj : f64) : 0 <= eps -> exp_close eps vexp -> dist64 d -> dist64 ri -> dist64 rj ->
  within (-500) 500 d -> within (-500) 500 ri -> within (-500) 500 rj ->
  nisfin (ls_val vexp "distance" d ri rj) = true /\
  Rabs (B2R (ls_val vexp "distance" d ri rj) - (1 - exp (- (B2R d * B2R d) / (B2R ri * B2R rj)))) <= eps + bpow radix2 (-50).
Proof.
  intros He EC Hd Hi Hj Wd Wi Wj. unfold ls_val. change (is_sim "distance") with false. cbv iota.
  assert (H5 : (0 <= 500 <= 500)%Z) by lia. pose proof u53_pos as Hu.
  destruct (mul_within 500 d d H5 Hd Hd Wd Wd) as (D1 & W1 & V1).
  destruct (mul_within 500 ri rj H5 Hi Hj Wi Wj) as (D2 & W2 & V2).
  assert (Pd := within_pos _ _ _ Wd). assert (Pi := within_pos _ _ _ Wi). assert (Pj := within_pos _ _ _ Wj).
  assert (N1 : bpow radix2 (-1022) <= Rabs (B2R d * B2R d)).
  { apply Rle_trans with (1 := bpow_1022). rewrite Rabs_pos_eq by (apply Rmult_le_pos; lra).
    replace (-1000)%Z with (-500 + -500)%Z by lia. rewrite bpow_plus. pose proof (bpow_ge_0 radix2 (-500)).
    apply Rmult_le_compat; try apply Wd; lra. }
  assert (N2 : bpow radix2 (-1022) <= Rabs (B2R ri * B2R rj)).
  { apply Rle_trans with (1 := bpow_1022). rewrite Rabs_pos_eq by (apply Rmult_le_pos; lra).
    replace (-1000)%Z with (-500 + -500)%Z by lia. rewrite bpow_plus. pose proof (bpow_ge_0 radix2 (-500)).
    apply Rmult_le_compat; try apply Wi; try apply Wj; lra. }
  destruct (rnd_norm _ N1) as (e1 & E1 & R1). destruct (rnd_norm _ N2) as (e2 & E2 & R2).
  rewrite R1 in V1. rewrite R2 in V2.
  destruct D1 as (F1 & S1), D2 as (F2 & S2).
  destruct (minus1_mul (nmul d d) (finite_nan _ F1) S1) as (N3 & S3 & F3 & V3).
  change (nisfin (nmul d d)) with (is_finite (nmul d d)) in F1. rewrite F1 in F3.
  assert (P1 := within_pos _ _ _ W1). assert (P2 := within_pos _ _ _ W2).
  remember (nmul d d) as dd. remember (nmul ri rj) as rr. remember (nmul (nofZ (-1)) dd) as a.
  destruct (div_cases a rr F3 (Rgt_not_eq _ _ P2)) as (SQ & C). rewrite S3, S2 in SQ, C. cbn [xorb] in SQ, C.
  set (x := (B2R d * B2R d) / (B2R ri * B2R rj)).
  assert (Px : 0 < x) by (unfold x; apply Rdiv_lt_0_compat; apply Rmult_lt_0_compat; lra).
  replace (- (B2R d * B2R d) / (B2R ri * B2R rj)) with (- x) by (unfold x; field; split; lra).
  assert (Q : B2R a / B2R rr = - (x * ((1 + e1) / (1 + e2)))).
  { rewrite V3, V1, V2. unfold x. apply Rabs_le_inv in E2. field. repeat split; lra. }
  assert (B50 : bpow radix2 (-50) = 8 * u53).
  { unfold u53. change (-50)%Z with (3 + -53)%Z. rewrite bpow_plus. f_equal. }
  remember (vexp (ndiv a rr)) as e.
  assert (G : nisfin e = true /\ 0 <= B2R e <= 1 /\ Rabs (B2R e - exp (- x)) <= eps + 5 * u53).
  { destruct C as [(_ & FQ & VQ)|(OV & EQ)].
    - destruct (rnd_any (B2R a / B2R rr)) as (e3 & t & E3 & Et & RQ). rewrite RQ, Q in VQ.
      destruct (ratio_close e1 e2 e3 u53 Hu E1 E2 E3) as (Pr & A1 & A2).
      set (r := (1 + e1) * (1 + e3) / (1 + e2)) in *.
      assert (VQ' : B2R (ndiv a rr) = - (x * r - t)).
      { rewrite VQ. unfold r. apply Rabs_le_inv in E2. field. lra. }
      assert (NQ : B2R (ndiv a rr) <= 0).
      { destruct (Rle_dec (B2R (ndiv a rr)) 0) as [L|L]; [exact L|]. exfalso.
        destruct (ndiv a rr) as [s|s| |s m ex Hb]; cbn in SQ, L; try lra. subst s. cbn in L.
        pose proof (F2R_le_0 radix2 (Float radix2 (Zneg m) ex) ltac:(cbn; lia)). lra. }
      destruct (ec_fin _ _ EC _ FQ NQ) as (Fe & Be & Ce). rewrite <- Heqe in *. split; [exact Fe|]. split; [exact Be|].
      replace (B2R e - exp (- x)) with ((B2R e - exp (B2R (ndiv a rr))) + ((exp (- (x * r - t)) - exp (- (x * r))) + (exp (- (x * r)) - exp (- x))))
        by (rewrite VQ'; ring).
      assert (Pxr : 0 < x * r) by (apply Rmult_lt_0_compat; lra).
      assert (X1 : Rabs (exp (- (x * r - t)) - exp (- (x * r))) <= u53).
      { apply Rle_trans with (Rabs ((x * r - t) - x * r)); [apply exp_abs; lra|].
        replace (x * r - t - x * r) with (- t) by ring. rewrite Rabs_Ropp. exact Et. }
      assert (X2 : Rabs (exp (- (x * r)) - exp (- x)) <= 4 * u53).
      { apply exp_rel; try lra.
        - replace (x * r - x) with (x * (r - 1)) by ring. rewrite Rabs_mult, (Rabs_pos_eq x) by lra.
          replace (4 * u53 * (x * r)) with (x * (4 * u53 * r)) by ring. apply Rmult_le_compat_l; lra.
        - replace (x * r - x) with (x * (r - 1)) by ring. rewrite Rabs_mult, (Rabs_pos_eq x) by lra.
          rewrite (Rmult_comm (4 * u53)). apply Rmult_le_compat_l; lra. }
      eapply Rle_trans; [apply Rabs_triang|]. apply Rle_trans with (eps + (u53 + 4 * u53)); [|lra].
      apply Rplus_le_compat; [exact Ce|]. eapply Rle_trans; [apply Rabs_triang|]. apply Rplus_le_compat; assumption.
    - destruct (ec_inf _ _ EC) as (Fe & Be & Ce). assert (EI : e = vexp nninf) by (rewrite Heqe, EQ; reflexivity).
      rewrite EI. split; [exact Fe|]. split; [exact Be|].
      assert (X : exp (- x) <= u53).
      { destruct (ratio_close e1 e2 0 u53 Hu E1 E2) as (Pr & A1 & A2); [rewrite Rabs_R0; lra|].
        rewrite Rplus_0_r, Rmult_1_r in *. set (r := (1 + e1) / (1 + e2)) in *.
        assert (Big : bpow radix2 1023 <= x * r).
        { destruct (Rle_dec (bpow radix2 1023) (x * r)) as [L|L]; [exact L|]. exfalso.
          apply Rle_not_lt in OV. apply OV. rewrite Q. unfold rnd. rewrite round_NE_opp, Rabs_Ropp. fold (rnd (x * r)).
          assert (Pxr : 0 < x * r) by (apply Rmult_lt_0_compat; lra).
          rewrite Rabs_pos_eq by (rewrite <- rnd_0; apply rnd_le; lra).
          apply Rle_lt_trans with (bpow radix2 1023); [apply rnd_le_bpow; [lia|lra]|apply bpow_lt; lia]. }
        apply Rabs_le_inv in A1. assert (r <= 2) by lra.
        assert (bpow radix2 53 <= x).
        { assert (bpow radix2 1023 = bpow radix2 1022 * 2) as E by (change 1023%Z with (1022 + 1)%Z; rewrite bpow_plus; f_equal).
          assert (bpow radix2 1022 <= x) by nra. apply Rle_trans with (bpow radix2 1022); [apply bpow_le; lia|assumption]. }
        pose proof (exp_ineq1_le x). rewrite exp_Ropp. unfold u53. change (-53)%Z with (- (53))%Z. rewrite bpow_opp.
        apply Rinv_le; [apply bpow_gt_0|lra]. }
      pose proof (exp_pos (- x)). apply Rabs_le. lra. }
  destruct G as (Fe & Be & Ce). destruct (sub1_acc e Fe Be) as (Fs & As). split; [exact Fs|].
  replace (B2R (nsub n1 e) - (1 - exp (- x))) with ((B2R (nsub n1 e) - (1 - B2R e)) - (B2R e - exp (- x))) by ring.
  unfold Rminus at 1. eapply Rle_trans; [apply Rabs_triang|]. rewrite Rabs_Ropp. rewrite B50. lra.
Qed.

Lemma same_B2R (w v : f64) : same w v = true -> nisfin v = true -> nisfin w = true /\ B2R w = B2R v.
Proof.
  unfold same. intros H F. apply orb_true_iff in H. destruct H as [H|H].
  - rewrite (cl_eq _ _ _ f64_cmp) in H. rewrite (f2x_fin _ F) in H.
    destruct w as [s|[|]| |s m e Hb]; try discriminate; split; try reflexivity; cbn in H;
      (destruct (Req_EM_T _ _); [assumption|discriminate]) || idtac.
  - apply andb_true_iff in H. destruct H as (_ & Hv). destruct v; discriminate.
Qed.

(** ** C150: if all distances between different objects are between 2^-500 and
    2^500, every value of local scaling in float64 differs from
    1 - exp(-d^2 / (r_i r_j)) by no more than 2^-50, plus the error of np.exp. *)
Theorem C150_local_scaling_accuracy :
  forall vexp eps part (D : arr2 f64) n k test cpu n_jobs res,
    0 <= eps -> exp_close eps vexp -> part_ok part -> nrow D = n -> ncol D = n ->
    (forall i j, (i < n)%nat -> (j < n)%nat -> i <> j -> dist64 (at2 D i j) /\ within (-500) 500 (at2 D i j)) ->
    (0 < k < length (training n test))%nat -> (1 <= workers cpu n_jobs)%Z ->
    local_scaling vexp part D (Z.of_nat k) "distance" test cpu n_jobs res ->
    exists L (r : nat -> f64), res = Ok L /\
      (forall i, (i < n)%nat -> kth_smallest (others D (training n test) i) k (r i)) /\
      (forall i j, (i < n)%nat -> (j < n)%nat -> nisfin (at2 L i j) = true) /\
      forall i j, (i < j)%nat -> (j < n)%nat ->
        let formula := 1 - exp (- (B2R (at2 D i j) * B2R (at2 D i j)) / (B2R (r i) * B2R (r j))) in
        Rabs (B2R (at2 L i j) - formula) <= eps + bpow radix2 (-50) /\
        Rabs (B2R (at2 L j i) - formula) <= eps + bpow radix2 (-50).
Proof.
  intros vexp eps part D n k test cpu nj res He EC PO Hr Hc Hf Hk Hw H.
  destruct (ls64_outcome _ _ _ _ _ _ _ _ _ PO Hr Hc (fun i j a b c => proj1 (Hf i j a b c)) Hk Hw H)
    as (L & rs & -> & _ & _ & K & Rd & Dg & Off).
  exists L, (fun i => nth i rs nnan). split; [reflexivity|]. split; [exact K|].
  assert (RD : forall a, (a < n)%nat -> dist64 (nth a rs nnan) /\ within (-500) 500 (nth a rs nnan)).
  { intros a Ha. destruct (Rd a Ha) as (b & Hb & Hba & ->). apply Hf; auto. }
  assert (C : forall i j, (i < n)%nat -> (j < n)%nat -> i <> j ->
    let m := Nat.min i j in let M := Nat.max i j in
    nisfin (at2 L i j) = true /\
    Rabs (B2R (at2 L i j) - (1 - exp (- (B2R (at2 D m M) * B2R (at2 D m M)) / (B2R (nth m rs nnan) * B2R (nth M rs nnan))))) <= eps + bpow radix2 (-50)).
  { intros i j Hi Hj Hne m M. assert (Hm : (m < n)%nat) by (unfold m; lia). assert (HM : (M < n)%nat) by (unfold M; lia).
    assert (HmM : m <> M) by (unfold m, M; lia).
    destruct (Hf m M Hm HM HmM) as (Dd & Wd). destruct (RD m Hm) as (Di & Wi). destruct (RD M HM) as (Dj & Wj).
    destruct (ls_val_close vexp eps _ _ _ He EC Dd Di Dj Wd Wi Wj) as (F & A).
    destruct (same_B2R _ _ (Off i j Hi Hj Hne) F) as (F' & E'). split; [exact F'|].
    fold m M in E'. rewrite E'. exact A. }
  split.
  - intros i j Hi Hj. destruct (Nat.eq_dec i j) as [->|Hne]; [now rewrite Dg|]. now apply (C i j).
  - intros i j Hij Hj formula. destruct (C i j ltac:(lia) Hj ltac:(lia)) as (_ & A). destruct (C j i Hj ltac:(lia) ltac:(lia)) as (_ & B).
    rewrite Nat.min_l, Nat.max_r in A by lia. rewrite Nat.min_r, Nat.max_l in B by lia. split; assumption.
Qed.

(** an exponential function rounded to multiples of 2^-60 is such a function *)
Definition exp60 (x : f64) : f64 :=
  match x with
  | B754_nan => B754_nan
  | B754_infinity true => n0
  | B754_infinity false => ninf
  | _ => binary_normalize 53 1024 prec53 emax1024 mode_NE (ZnearestE (exp (B2R x) * bpow radix2 60)) (-60) false
  end.

Lemma exp60_close : exp_close (bpow radix2 (-52)) exp60.
Proof.
  split.
  - intros x F N.
    assert (E : exp60 x = binary_normalize 53 1024 prec53 emax1024 mode_NE (ZnearestE (exp (B2R x) * bpow radix2 60)) (-60) false)
      by (destruct x; try discriminate; reflexivity).
    rewrite E. clear E. set (m := ZnearestE _).
    assert (Ex : 0 < exp (B2R x) <= 1).
    { split; [apply exp_pos|]. rewrite <- exp_0. destruct (Req_dec (B2R x) 0) as [->|]; [lra|left; apply exp_increasing; lra]. }
    pose proof (bpow_gt_0 radix2 60) as P6.
    assert (Bm : (0 <= m <= 2 ^ 60)%Z).
    { unfold m. split.
      - rewrite <- (Zrnd_IZR ZnearestE 0). apply (Zrnd_le ZnearestE). apply Rmult_le_pos; lra.
      - rewrite <- (Zrnd_IZR ZnearestE (2 ^ 60)). apply (Zrnd_le ZnearestE).
        change (IZR (2 ^ 60)) with (bpow radix2 60). nra. }
    assert (Cm : Rabs (IZR m - exp (B2R x) * bpow radix2 60) <= / 2).
    { unfold m. rewrite Rabs_minus_sym. apply Znearest_half. }
    pose proof (binary_normalize_correct 53 1024 prec53 emax1024 mode_NE m (-60) false) as B.
    set (y := IZR m * bpow radix2 (-60)).
    change (if Rlt_bool (Rabs (rnd y)) (bpow radix2 1024)
            then B2R (binary_normalize 53 1024 prec53 emax1024 mode_NE m (-60) false) = rnd y /\
                 is_finite (binary_normalize 53 1024 prec53 emax1024 mode_NE m (-60) false) = true /\
                 Bsign (binary_normalize 53 1024 prec53 emax1024 mode_NE m (-60) false) =
                   match Rcompare y 0 with Eq => false | Lt => true | Gt => false end
            else B2SF (binary_normalize 53 1024 prec53 emax1024 mode_NE m (-60) false) =
                 binary_overflow 53 1024 mode_NE (Rlt_bool y 0)) in B.
    assert (I6 : bpow radix2 60 * bpow radix2 (-60) = 1) by (rewrite <- bpow_plus; reflexivity).
    pose proof (bpow_gt_0 radix2 (-60)) as P6'.
    assert (Uy : 0 <= y <= 1).
    { unfold y. destruct Bm as (B0 & B1). apply IZR_le in B0, B1. change (IZR (2 ^ 60)) with (bpow radix2 60) in B1.
      split; [apply Rmult_le_pos; lra|]. rewrite <- I6. apply Rmult_le_compat_r; lra. }
    pose proof (rnd_unit _ Uy) as RU.
    assert (SM : Rabs (rnd y) < bpow radix2 1024) by (rewrite Rabs_pos_eq by lra; pose proof bpow1024_big; lra).
    rewrite (Rlt_bool_true _ _ SM) in B.
    destruct B as (V & Fin & _). rewrite V. split; [exact Fin|]. split; [exact RU|].
    replace (rnd y - exp (B2R x)) with ((rnd y - y) + (y - exp (B2R x))) by ring.
    eapply Rle_trans; [apply Rabs_triang|].
    assert (A : Rabs (y - exp (B2R x)) <= bpow radix2 (-53)).
    { replace (y - exp (B2R x)) with ((IZR m - exp (B2R x) * bpow radix2 60) * bpow radix2 (-60)).
      - rewrite Rabs_mult, (Rabs_pos_eq (bpow radix2 (-60))) by lra.
        apply Rle_trans with (/ 2 * bpow radix2 (-60)); [apply Rmult_le_compat_r; lra|].
        apply Rle_trans with (bpow radix2 (-60)); [lra|]. apply bpow_le. lia.
      - unfold y. rewrite Rmult_minus_distr_r, Rmult_assoc, I6. ring. }
    pose proof (rnd_err y Uy) as A2.
    assert (E52 : bpow radix2 (-52) = 2 * bpow radix2 (-53)) by (change (-52)%Z with (1 + -53)%Z; rewrite bpow_plus; f_equal).
    rewrite E52. lra.
  - change (exp60 nninf) with (n0 (V:=f64)). destruct n0_f64 as (-> & F0). split; [exact F0|].
    pose proof (bpow_ge_0 radix2 (-52)). lra.
Qed.

(** three points on a line, and an exponential function with error 2^-52 *)
Example C150_case :
  0 <= bpow radix2 (-52) /\ exp_close (bpow radix2 (-52)) exp60 /\
  (forall i j, (i < 3)%nat -> (j < 3)%nat -> i <> j -> dist64 (at2 (line3 0) i j) /\ within (-500) 500 (at2 (line3 0) i j)) /\
  (0 < 1 < length (training 3 None))%nat.
Proof.
  split; [apply bpow_ge_0|]. split; [exact exp60_close|]. split; [|cbn; lia].
  intros i j Hi Hj Hne. destruct (line3_at 0 i j ltac:(lia) Hi Hj Hne) as (A & B & _).
  split; [exact A|]. unfold within in *. split.
  - apply Rle_trans with (bpow radix2 0); [apply bpow_le; lia|]. apply B.
  - apply Rle_trans with (bpow radix2 2); [apply B|apply bpow_le; lia].
Qed.
Print Assumptions C150_local_scaling_accuracy.
