(** Property C164: the Robin Hood and Atkinson indices of class Hubness in float64
    (hubness.py:643-654). *)
From Coq Require Import String.
From Coq Require Import ZArith Reals Lra List Arith Lia Bool Permutation.
From Flocq Require Import Core BinarySingleNaN.
From Verif Require Import Py Num NumT Arr Sort Conc M_IO M_Dist M_Hubness M_HubnessClass S_HubnessClass P_HubnessClass P_HubnessClass2 Properties_HubnessClass.
From Verif Require Import S_LSFloat P_F64 P_LSFloat P_LSAcc S_Centering S_SkewFloat P_SkewFloat Properties_SkewFloat S_NicdmAcc P_NicdmAcc S_Ineq P_Ineq.
From Verif Require Import Properties_NicdmAcc.
Import ListNotations.
Local Open Scope nat_scope.
Local Open Scope R_scope.

(** ** C164 (1): if the mean is a whole number (as many queries as objects), the
    Robin Hood index is the correctly rounded one, whatever the order of summation *)
Theorem C164_robin_hood_exact :
  forall vsum (Nk : list Z) m,
    (forall l, added_up l (vsum l)) ->
    (forall x, In x Nk -> (0 <= x)%Z) -> (0 < ztotal Nk)%Z -> (2 * ztotal Nk < 2 ^ 53)%Z ->
    (ztotal Nk = Z.of_nat (length Nk) * m)%Z ->
    let H := hood_index vsum Nk in
    nisfin H = true /\ B2R H = rnd (robin_hood Nk) /\
    nle n0 H = true /\ nlt H n1 = true /\
    (neq H n0 = true <-> all_equal Nk).
Proof.
  intros vsum Nk m Hs Hnn Hpos Hsz Hm H. rewrite <- sumZ_ztotal in *.
  destruct (hood_whole Nk m vsum Hnn Hpos Hm Hsz (C159_any_order vsum Hs)) as (F & E).
  destruct (robin_bounds Nk m Hnn Hpos Hm Hsz) as ((B0 & B1) & B2 & B3).
  destruct n0_f64 as (E0 & F0), n1_f64 as (E1 & F1). fold H in F, E. pose proof (bpow_gt_0 radix2 (-53)) as P53.
  split; [exact F|]. split; [exact E|].
  assert (U : 0 <= rnd (robin_hood Nk)) by (rewrite <- rnd_0; now apply rnd_le).
  split; [apply nle_B2R; [exact F0|exact F|lra]|].
  split; [apply nlt_B2R; [exact F|exact F1|]; pose proof (rnd_lt1 _ B1); lra|].
  rewrite (cl_eq _ _ _ f64_cmp), (cl_0 _ _ _ f64_cmp), f2x_fin by exact F. rewrite E. cbn.
  unfold all_equal. rewrite <- B3. destruct B2 as [Z0|G].
  - rewrite Z0, rnd_0. destruct (Req_EM_T 0 0); [tauto|congruence].
  - pose proof (rnd_gt0 _ G). destruct (Req_EM_T (rnd (robin_hood Nk)) 0); [lra|]. split; [discriminate|lra].
Qed.

(** ** C164 (2): for any numbers, the absolute error is at most 6 eps *)
Theorem C164_robin_hood_accuracy :
  forall vsum eps (Nk : list Z),
    bpow radix2 (-53) <= eps <= bpow radix2 (-20) -> sum_close eps (length Nk) vsum ->
    (forall x, In x Nk -> (0 <= x)%Z) -> (0 < ztotal Nk)%Z -> (2 * ztotal Nk < 2 ^ 53)%Z -> (Z.of_nat (length Nk) <= 2 ^ 53)%Z ->
    let H := hood_index vsum Nk in
    nisfin H = true /\ Rabs (B2R H - robin_hood Nk) <= 6 * eps.
Proof.
  intros vsum eps Nk He Hs Hnn Hpos Hsz Hn H. rewrite <- sumZ_ztotal in *. exact (hood64 Nk Hnn Hpos Hsz Hn eps vsum He Hs).
Qed.

(** ** C164 (3): the absolute error of the Atkinson index is at most 36 eps *)
Theorem C164_atkinson_accuracy :
  forall vsum vpow eps (Nk : list Z),
    bpow radix2 (-53) <= eps <= bpow radix2 (-20) -> sum_close eps (length Nk) vsum -> pow_close eps vpow ->
    (forall x, In x Nk -> (0 <= x)%Z) -> (0 < ztotal Nk)%Z -> (2 * ztotal Nk < 2 ^ 53)%Z -> (Z.of_nat (length Nk) <= 2 ^ 53)%Z ->
    let A := atkinson_index vsum vpow (ndiv (nofZ 3) (nofZ 4)) Nk in
    nisfin A = true /\ Rabs (B2R A - atkinson Nk) <= 36 * eps /\ 0 <= atkinson Nk < 1.
Proof.
  intros vsum vpow eps Nk He Hs Hp Hnn Hpos Hsz Hn A. rewrite <- sumZ_ztotal in *.
  destruct (atkinson64 Nk Hnn Hpos Hsz Hn eps vsum vpow He Hs Hp) as (F & B). split; [exact F|]. split; [exact B|].
  pose proof (atk_mean Nk Hnn Hpos) as M. destruct (zmean64 Nk Hnn Hpos Hsz Hn) as (_ & _ & Bm & _). pose proof (bpow_gt_0 radix2 (-53)) as P.
  destruct (roots_ge1 Nk Hnn) as (_ & T1). specialize (T1 Hpos). pose proof (n_pos Nk Hnn Hpos) as Pn. apply lt_0_INR in Pn.
  unfold atkinson. change (fun x => sqrt (sqrt (IZR x))) with root4. set (t := (S_NicdmAcc.total (map root4 Nk) / INR (length Nk)) ^ 4) in *.
  assert (Pt : 0 < t) by (apply pow_lt, Rdiv_lt_0_compat; lra).
  assert (Q : 0 < t / avg Nk <= 1).
  { split; [apply Rdiv_lt_0_compat; lra|]. apply Rmult_le_reg_r with (avg Nk); [lra|]. unfold Rdiv. rewrite Rmult_assoc, Rinv_l, Rmult_1_r by lra. lra. }
  lra.
Qed.

(** ** C164 (4): the attributes of class Hubness.  The numbers of queries and of
    objects may differ; if they are equal the Robin Hood index is correctly rounded. *)
Theorem C164_class :
  forall vsum vpow eps,
    bpow radix2 (-53) <= eps <= bpow radix2 (-20) ->
  forall argpart, argpart_ok argpart ->
  forall rdist metric k (hub_size : f64) bs n_jobs rps has_self X Y f,
    (1 <= bs)%Z -> (1 <= k)%nat -> in_wf X rps ->
    fit_transform rdist vsum vpow argpart metric k hub_size bs n_jobs rps has_self X Y (Ok f) ->
    (0 < in_rows X)%nat -> (2 * Z.of_nat (in_rows X * k) < 2 ^ 53)%Z -> (Z.of_nat (in_train metric X Y) <= 2 ^ 53)%Z ->
    sum_close eps (in_train metric X Y) vsum -> pow_close eps vpow ->
    let Nk := map Z.of_nat (f_occ f) in
    nisfin (f_hood f) = true /\ Rabs (B2R (f_hood f) - robin_hood Nk) <= 6 * eps /\
    nisfin (f_atkinson f) = true /\ Rabs (B2R (f_atkinson f) - atkinson Nk) <= 36 * eps /\
    ((forall l, added_up l (vsum l)) -> in_train metric X Y = in_rows X ->
       B2R (f_hood f) = rnd (robin_hood Nk) /\ nle n0 (f_hood f) = true /\ nlt (f_hood f) n1 = true /\
       (neq (f_hood f) n0 = true <-> all_equal Nk)).
Proof.
  intros vsum vpow eps He argpart AP rdist metric k hs bs nj rps hself X Y f Hb Hk Hw H Hpos Hsz Hnt Hs Hp Nk.
  destruct (C43_measures argpart AP rdist vsum vpow metric k hs bs nj rps hself X Y f Hb Hk Hw Hpos H) as (L1 & L2 & O & T & _).
  destruct (fit_rows f64_cmp rdist vsum vpow argpart AP metric k hs bs nj rps hself X Y f Hb Hw H) as (M & L & HR).
  pose proof (measures_nn _ _ _ _ _ _ _ _ M) as (_ & Eo & One & _).
  unfold measures in M. apply bind_ok_inv in M as ([] & _ & M).
  assert (Ex : forall a b : hub_fit (V:=f64), Ok a = Ok b -> a = b) by (intros ? ? [=]; assumption).
  apply Ex in M. rewrite <- Eo in M. fold Nk in M.
  assert (E1 : f_hood f = hood_index vsum Nk) by (rewrite <- M at 1; reflexivity).
  assert (E2 : f_atkinson f = atkinson_index vsum vpow (ndiv (nofZ 3) (nofZ 4)) Nk) by (rewrite <- M at 1; reflexivity).
  assert (Len : length Nk = in_train metric X Y) by (unfold Nk; now rewrite map_length).
  assert (Tz : ztotal Nk = Z.of_nat (in_rows X * k)) by exact T.
  assert (Nn : forall x, In x Nk -> (0 <= x)%Z) by (intros x Hx; apply in_map_iff in Hx as (y & <- & _); lia).
  assert (Pz : (0 < ztotal Nk)%Z) by (rewrite Tz; nia). rewrite <- Tz in Hsz. rewrite <- Len in Hs, Hnt.
  rewrite E1, E2.
  destruct (C164_robin_hood_accuracy vsum eps Nk He Hs Nn Pz Hsz Hnt) as (A1 & A2).
  destruct (C164_atkinson_accuracy vsum vpow eps Nk He Hs Hp Nn Pz Hsz Hnt) as (B1 & B2 & _).
  split; [exact A1|]. split; [exact A2|]. split; [exact B1|]. split; [exact B2|]. intros Hadd Heq.
  destruct (C164_robin_hood_exact vsum Nk (Z.of_nat k) Hadd Nn Pz Hsz) as (_ & C).
  { rewrite Tz, Len, Heq. lia. }
  exact C.
Qed.

(** ** The hypotheses can be met: correctly rounded powers *)
Definition pow64 (x e : f64) : f64 := of_real (powR (B2R x) (B2R e)).
Lemma powR_quarter x : 0 <= x -> powR x (/ 4) = sqrt (sqrt x).
Proof.
  intros H. unfold powR. destruct (Req_EM_T (/ 4) 0); [lra|]. destruct (Req_EM_T x 0) as [->|N]; [now rewrite !sqrt_0|].
  assert (P : 0 < x) by lra. rewrite <- (Rpower_sqrt (sqrt x)) by now apply sqrt_lt_R0. rewrite <- (Rpower_sqrt x) by exact P.
  rewrite Rpower_mult. f_equal. lra.
Qed.
Lemma powR_four x : 0 < x -> powR x 4 = x ^ 4.
Proof.
  intros P. unfold powR. destruct (Req_EM_T 4 0); [lra|]. destruct (Req_EM_T x 0); [lra|].
  rewrite <- Rpower_pow by exact P. f_equal. cbn. lra.
Qed.
Lemma of_real_close r : 0 = r \/ bpow radix2 (-1022) <= r <= bpow radix2 1000 ->
  nisfin (of_real r) = true /\ Rabs (B2R (of_real r) - r) <= bpow radix2 (-53) * r.
Proof.
  intros [<-|(A & B)].
  - destruct (of_real_ok 0) as (F & E); [rewrite rnd_0, Rabs_R0; apply bpow_gt_0|]. split; [exact F|]. rewrite E, rnd_0, Rmult_0_r, Rminus_0_r, Rabs_R0. lra.
  - pose proof (bpow_gt_0 radix2 (-1022)) as P. destruct (rnd_norm r) as (e & He & Er); [rewrite Rabs_pos_eq; lra|].
    destruct (of_real_ok r) as (F & E).
    { apply under_max; [lra|]. apply Rle_trans with (1 := B). apply bpow_le. lia. }
    split; [exact F|]. rewrite E, Er. replace (r * (1 + e) - r) with (e * r) by ring. rewrite Rabs_mult, (Rabs_pos_eq r) by lra. apply Rmult_le_compat_r; [lra|exact He].
Qed.
Theorem C164_pow : pow_close (bpow radix2 (-53)) pow64.
Proof.
  split; intros x e Fx Bx Fe Ee; unfold pow64; rewrite Ee.
  - rewrite powR_quarter by apply Bx. apply of_real_close. destruct (Req_EM_T (B2R x) 0) as [->|N]; [left; now rewrite !sqrt_0|right].
    destruct (finite_below x) as (Lo & _); [lra|]. split.
    + apply Rle_trans with (bpow radix2 (-269)); [apply bpow_le; lia|].
      rewrite <- (sqrt_Rsqr (bpow radix2 (-269))) by apply bpow_ge_0. apply sqrt_le_1_alt. unfold Rsqr. rewrite <- bpow_plus.
      change (-269 + -269)%Z with (-538)%Z. rewrite <- (sqrt_Rsqr (bpow radix2 (-538))) by apply bpow_ge_0. apply sqrt_le_1_alt. unfold Rsqr. rewrite <- bpow_plus.
      apply Rle_trans with (2 := Lo). apply bpow_le. lia.
    + assert (P1 : 1 <= bpow radix2 53) by (apply (bpow_le radix2 0 53); lia). apply Rle_trans with (bpow radix2 53); [|apply bpow_le; lia].
      apply sqrt_below; [apply sqrt_pos|exact P1|]. apply sqrt_below; lra.
  - pose proof (bpow_gt_0 radix2 (-60)) as P. rewrite powR_four by lra. apply of_real_close. right.
    replace (B2R x ^ 4) with ((B2R x * B2R x) * (B2R x * B2R x)) by ring.
    assert (0 <= bpow radix2 (-60) * bpow radix2 (-60)) by (apply Rmult_le_pos; lra). assert (0 <= B2R x * B2R x) by (apply Rmult_le_pos; lra).
    split.
    + apply Rle_trans with ((bpow radix2 (-60) * bpow radix2 (-60)) * (bpow radix2 (-60) * bpow radix2 (-60))); [rewrite <- !bpow_plus; apply bpow_le; lia|].
      apply Rmult_le_compat; [lra|lra|apply Rmult_le_compat; lra|apply Rmult_le_compat; lra].
    + apply Rle_trans with ((bpow radix2 60 * bpow radix2 60) * (bpow radix2 60 * bpow radix2 60)); [|rewrite <- !bpow_plus; apply bpow_le; lia].
      apply Rmult_le_compat; [lra|lra|apply Rmult_le_compat; lra|apply Rmult_le_compat; lra].
Qed.

(** occurrences 3, 0, 5, 1, 1 of five objects and k = 2: the index is 2/5 *)
Theorem C164_case :
  let Nk := [3; 0; 5; 1; 1]%Z in
  B2R (hood_index left_to_right Nk) = rnd (2 / 5) /\
  Rabs (B2R (hood_index left_to_right [3; 0; 5; 1]%Z) - 7 / 18) <= 6 * (INR 4 * bpow radix2 (-52)) /\
  Rabs (B2R (atkinson_index left_to_right pow64 (ndiv (nofZ 3) (nofZ 4)) [16; 0; 0; 0]%Z) - 63 / 64) <= 36 * (INR 4 * bpow radix2 (-52)).
Proof.
  assert (He : bpow radix2 (-53) <= INR 4 * bpow radix2 (-52) <= bpow radix2 (-20)).
  { change (INR 4) with (1 + 1 + 1 + 1). pose proof (bpow_gt_0 radix2 (-52)). pose proof (bpow_le radix2 (-53) (-52) ltac:(lia)).
    assert (bpow radix2 (-52) * bpow radix2 2 = bpow radix2 (-50)) by (rewrite <- bpow_plus; reflexivity).
    change (bpow radix2 2) with 4 in *. pose proof (bpow_le radix2 (-50) (-20) ltac:(lia)). split; lra. }
  assert (Hs : sum_close (INR 4 * bpow radix2 (-52)) 4 left_to_right) by (apply C158_left_to_right; lia).
  split; [|split].
  - destruct (C164_robin_hood_exact left_to_right [3; 0; 5; 1; 1]%Z 2) as (_ & E & _).
    + exact (proj1 C159_summation_orders).
    + intros x Hx. cbn in Hx. lia.
    + reflexivity.
    + reflexivity.
    + reflexivity.
    + rewrite E. f_equal. unfold robin_hood, avg. cbn [map S_NicdmAcc.total fold_right length]. change (INR 5) with (1 + 1 + 1 + 1 + 1).
      rewrite (Rabs_pos_eq (3 - _)), (Rabs_left1 (0 - _)), (Rabs_pos_eq (5 - _)), !(Rabs_left1 (1 - _)) by lra. lra.
  - destruct (C164_robin_hood_accuracy left_to_right (INR 4 * bpow radix2 (-52)) [3; 0; 5; 1]%Z He Hs) as (_ & E); [intros x Hx; cbn in Hx; lia|reflexivity|reflexivity|discriminate|].
    replace (7 / 18) with (robin_hood [3; 0; 5; 1]%Z); [exact E|]. unfold robin_hood, avg. cbn [map S_NicdmAcc.total fold_right length]. change (INR 4) with (1 + 1 + 1 + 1).
    rewrite (Rabs_pos_eq (3 - _)), (Rabs_left1 (0 - _)), (Rabs_pos_eq (5 - _)), (Rabs_left1 (1 - _)) by lra. lra.
  - assert (Hp : pow_close (INR 4 * bpow radix2 (-52)) pow64).
    { destruct C164_pow as (A & B). split; intros x e Fx Bx Fe Ee; [destruct (A x e Fx Bx Fe Ee) as (F & Q)|destruct (B x e Fx Bx Fe Ee) as (F & Q)]; (split; [exact F|]);
        (apply Rle_trans with (1 := Q); apply Rmult_le_compat_r; [|apply He]).
      - apply sqrt_pos.
      - apply pow_le. pose proof (bpow_gt_0 radix2 (-60)). lra. }
    destruct (C164_atkinson_accuracy left_to_right pow64 (INR 4 * bpow radix2 (-52)) [16; 0; 0; 0]%Z He Hs Hp) as (_ & E & _);
      [intros x Hx; cbn in Hx; lia|reflexivity|reflexivity|discriminate|].
    replace (63 / 64) with (atkinson [16; 0; 0; 0]%Z); [exact E|]. unfold atkinson, avg. cbn [map S_NicdmAcc.total fold_right length].
    assert (S16 : sqrt (sqrt 16) = 2) by (replace 16 with (4 * 4) by lra; rewrite sqrt_square by lra; replace 4 with (2 * 2) by lra; apply sqrt_square; lra).
    rewrite sqrt_0, sqrt_0, S16. change (INR 4) with (1 + 1 + 1 + 1). field.
Qed.

Print Assumptions C164_robin_hood_exact.
Print Assumptions C164_robin_hood_accuracy.
Print Assumptions C164_atkinson_accuracy.
Print Assumptions C164_class.
Print Assumptions C164_pow.
Print Assumptions C164_case.
