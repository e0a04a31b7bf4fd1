(** Property C178: local scaling and NICDM of distances to a sample, in float64
    (local_scaling.py:24-138, 313-400). *)
From Coq Require Import String.
From Coq Require Import ZArith Reals Lra List Arith Lia Bool Permutation.
From Flocq Require Import Core BinarySingleNaN.
From Verif Require Import Py Num NumT Arr Sort Conc S_Neighbors S_LS M_IO M_Hubness M_SNN M_LS.
From Verif Require Import P_Neighbors P_Hubness P_MPEmpiric P_MPEmpiric2 P_SNN P_LS P_LS2 P_LS3 P_NICDM P_LSSample Properties_LS2.
From Verif Require Import P_F64 S_LSFloat P_LSFloat Properties_LSFloat S_LSAcc P_LSAcc Properties_LSAcc S_NicdmAcc P_NicdmAcc Properties_NicdmAcc.
Import ListNotations.
Local Open Scope nat_scope.
Local Open Scope R_scope.

(** the object that row [a] of the result belongs to *)
Definition row_object (test : option (list nat)) (a : nat) : nat := match test with None => a | Some t => nth a t 0%nat end.

Lemma ls_val_self vexp eps (ri rj : f64) : 0 <= eps -> exp_close eps vexp -> dist64 ri -> dist64 rj ->
  within (-500) 500 ri -> within (-500) 500 rj ->
  nisfin (ls_val vexp "distance" ninf ri rj) = true /\ Rabs (B2R (ls_val vexp "distance" ninf ri rj) - 1) <= eps + bpow radix2 (-50).
Proof.
  intros He EC Hi Hj Wi Wj. unfold ls_val. change (is_sim "distance") with false. cbv iota.
  destruct (mul_within 500 ri rj ltac:(lia) Hi Hj Wi Wj) as ((F & Sg) & W & _).
  assert (E : ndiv (nmul (nofZ (-1)) (nmul ninf ninf)) (nmul ri rj) = nninf :> f64).
  { change (nmul (nofZ (-1)) (nmul ninf ninf)) with (@nninf f64 _). revert F Sg W. generalize (nmul ri rj : f64). intros x F Sg W.
    destruct x as [s|s| |s m e B]; try discriminate.
    - exfalso. unfold within in W. cbn [B2R] in W. pose proof (bpow_gt_0 radix2 (-2 * 500)). lra.
    - cbn in Sg. subst s. reflexivity. }
  rewrite E. destruct (ec_inf _ _ EC) as (Fx & B & L). destruct (sub1_acc _ Fx B) as (F1 & A1). split; [exact F1|].
  apply Rabs_le_inv in A1. apply Rabs_le. pose proof u53_pos. assert (u53 <= bpow radix2 (-50)) by (unfold u53; apply bpow_le; lia). lra.
Qed.

(** ** local scaling: if all distances to other objects are between 2^-500 and 2^500,
    the error is at most eps + 2^-50, where eps bounds the error of np.exp *)
Theorem C178_local_scaling_sample :
  forall vexp eps part (D : arr2 f64) train k test,
    0 <= eps -> exp_close eps vexp -> part_ok part ->
    (ncol D <= nrow D)%nat -> length train = ncol D -> NoDup train -> (forall s, In s train -> (s < nrow D)%nat) ->
    match test with None => True | Some t => forall s, In s t -> (s < nrow D)%nat end ->
    (forall i j, (i < nrow D)%nat -> (j < ncol D)%nat -> nth j train 0%nat <> i -> dist64 (at2 D i j) /\ within (-500) 500 (at2 D i j)) ->
    (0 < k < length train)%nat ->
    exists L (r : nat -> f64),
      local_scaling_sample vexp part D (Z.of_nat k) "distance" train test = Ok L /\
      nrow L = (match test with None => nrow D | Some t => length t end) /\ ncol L = ncol D /\
      (forall i, (i < nrow D)%nat -> kth_smallest (sample_others D train i) k (r i)) /\
      forall a j, (a < nrow L)%nat -> (j < ncol D)%nat ->
        let i := row_object test a in
        let formula := 1 - exp (- (B2R (at2 D i j) * B2R (at2 D i j)) / (B2R (r i) * B2R (r (nth j train 0%nat)))) in
        nisfin (at2 L a j) = true /\
        (nth j train 0%nat <> i -> test <> None \/ a <> j -> Rabs (B2R (at2 L a j) - formula) <= eps + bpow radix2 (-50)) /\
        (nth j train 0%nat = i -> test <> None \/ a = j -> at2 L a j = n0) /\
        (* the misplaced self cells *)
        (test = None -> nth j train 0%nat = i -> a <> j -> Rabs (B2R (at2 L a j) - 1) <= eps + bpow radix2 (-50)) /\
        (test = None -> nth j train 0%nat <> i -> a = j -> at2 L a j = n0).
Proof.
  intros vexp eps part D train k test He EC PO Hn Hl Nd Ht Hte Hf Hk. unfold local_scaling_sample. rewrite sample_checks by assumption. cbn [bind].
  change (check_valid_metric_parameter "distance") with (@Ok unit tt). cbn [bind].
  change (guard (is_sim "distance") NotImplementedError) with (@Ok unit tt). cbn [bind].
  rewrite (proj2 (existsb_ge_false (nrow D) train) Ht). cbn [guard bind].
  assert (A : forall i, (i < nrow D)%nat -> exists v, ls_radius part (set_cells train ninf D) (seq 0 (ncol D)) (Z.of_nat k - 1) i = Ok v /\
      kth_smallest (sample_others D train i) k v).
  { intros i Hi. rewrite <- Hl. apply (ls_radius_sample f64_cmp part PO); auto. intros x Hx. apply sample_others_in in Hx.
    destruct Hx as (j & Hj & Hne & ->). apply Hf; auto. lia. }
  destruct (mapM_all (ls_radius part (set_cells train ninf D) (seq 0 (ncol D)) (Z.of_nat k - 1)) (seq 0 (nrow D))) as (rs & E).
  { intros i Hi. apply in_seq in Hi. destruct (A i) as (v & Ev & _); [lia|]. now exists v. }
  rewrite E. cbn [bind].
  assert (K : forall i, (i < nrow D)%nat -> kth_smallest (sample_others D train i) k (nth i rs nnan)).
  { intros i Hi. destruct (A i Hi) as (v & Ev & Kv). apply (mapM_nth _ _ _ i 0%nat nnan) in E; [|now rewrite seq_length].
    rewrite seq_nth in E by assumption. simpl (0 + i)%nat in E. rewrite Ev in E.
    assert (E' : v = nth i rs nnan) by congruence. now rewrite <- E'. }
  assert (RD : forall i, (i < nrow D)%nat -> dist64 (nth i rs nnan) /\ within (-500) 500 (nth i rs nnan)).
  { intros i Hi. destruct (K i Hi) as (Kin & _). apply sample_others_in in Kin. destruct Kin as (j & Hj & Hne & ->). apply Hf; auto. lia. }
  assert (G : guard match test with None => false | Some t => existsb (fun i : nat => (nrow D <=? i)%nat) t end IndexError = Ok tt).
  { destruct test as [t|]; [|reflexivity]. now rewrite (proj2 (existsb_ge_false (nrow D) t) Hte). }
  rewrite G. cbn [bind].
  destruct (sample_matrix D train test (fun i j => ls_val vexp "distance" (at2 (set_cells train ninf D) i j) (nth i rs nnan) (nth (nth j train 0%nat) rs nnan)) Hl Hte)
    as (L & EL & R1 & R2 & AL).
  exists L, (fun i => nth i rs nnan). split; [exact EL|]. split; [destruct test; [exact R1|rewrite R1, seq_length; reflexivity]|]. split; [exact R2|].
  split; [exact K|].
  intros a j Ha Hj. set (i := row_object test a). specialize (AL a j Ha Hj).
  assert (Hi : (i < nrow D)%nat).
  { unfold i, row_object. destruct test as [t|]; [apply Hte, nth_In; now rewrite R1 in Ha|]. now rewrite R1, seq_length in Ha. }
  assert (Hj' : (nth j train 0%nat < nrow D)%nat) by (apply Ht, nth_In; lia).
  destruct (RD i Hi) as (Di & Wi). destruct (RD _ Hj') as (Dj & Wj).
  assert (Ec : at2 (set_cells train ninf D) i j = if (nth j train 0 =? i)%nat then ninf else at2 D i j).
  { rewrite set_cells_at, Hl. replace (j <? ncol D)%nat with true by (symmetry; apply Nat.ltb_lt; lia). cbn [andb]. now rewrite (Nat.eqb_sym i). }
  assert (AL' : at2 L a j = if (match test with None => (a =? j)%nat | Some t => (nth j train 0 =? i)%nat end) then n0
     else ls_val vexp "distance" (at2 (set_cells train ninf D) i j) (nth i rs nnan) (nth (nth j train 0%nat) rs nnan)).
  { rewrite AL. unfold i, row_object. destruct test; reflexivity. }
  clear AL. rewrite Ec in AL'.
  assert (Fn : forall b : bool, nisfin (if b then n0 else ls_val vexp "distance" (if (nth j train 0 =? i)%nat then ninf else at2 D i j) (nth i rs nnan) (nth (nth j train 0%nat) rs nnan)) = true).
  { intros [|]; [reflexivity|]. destruct (Nat.eqb_spec (nth j train 0%nat) i) as [Es|Es].
    - now apply (ls_val_self vexp eps).
    - destruct (Hf i j Hi Hj Es) as (Dd & Wd). now apply (ls_val_close vexp eps). }
  split; [rewrite AL'; apply Fn|]. split; [|split; [|split]].
  - intros Hne Hc. rewrite AL'. destruct (Nat.eqb_spec (nth j train 0%nat) i) as [Es|Es]; [contradiction|].
    replace (match test with None => (a =? j)%nat | Some _ => false end) with false.
    2:{ destruct test; [reflexivity|]. destruct Hc as [Hc|Hc]; [congruence|]. symmetry. now apply Nat.eqb_neq. }
    destruct (Hf i j Hi Hj Es) as (Dd & Wd). now apply (ls_val_close vexp eps).
  - intros Hs Hc. rewrite AL'. apply Nat.eqb_eq in Hs. rewrite Hs. destruct test; [reflexivity|]. destruct Hc as [Hc| ->]; [congruence|]. now rewrite Nat.eqb_refl.
  - intros -> Hs Hc. rewrite AL'. apply Nat.eqb_eq in Hs. rewrite Hs. apply Nat.eqb_neq in Hc. rewrite Hc. now apply ls_val_self.
  - intros -> Hs ->. rewrite AL'. now rewrite Nat.eqb_refl.
Qed.

Lemma pos_finite (x : f64) : nisfin x = true -> 0 < B2R x -> exists m e B, x = B754_finite false m e B.
Proof.
  intros F P. destruct x as [b|b| |b m e B]; try discriminate; [cbn in P; lra|].
  destruct b; [|now exists m, e, B]. exfalso. pose proof (F2R_lt_0 radix2 (Float radix2 (Zneg m) e) ltac:(cbn; lia)) as H. cbn [B2R cond_Zopp Z.opp] in P. lra.
Qed.

Lemma nicdm_val_self eps (g ri rj : f64) (G Ri Rj : R) : bpow radix2 (-53) <= eps <= bpow radix2 (-20) ->
  nisfin g = true -> nisfin ri = true -> nisfin rj = true ->
  lclose (686 * eps) (B2R g) G -> lclose (4 * eps) (B2R ri) Ri -> lclose (4 * eps) (B2R rj) Rj ->
  bpow radix2 (-300) <= Ri <= bpow radix2 300 -> bpow radix2 (-300) <= Rj <= bpow radix2 300 ->
  nicdm_val g ninf ri rj = ninf.
Proof.
  intros He Fg Fi Fj Cg Ci Cj Bi Bj. destruct (eps_small eps He) as (U0 & U1 & U2). unfold nicdm_val.
  destruct (pos_finite g Fg (lclose_pos _ _ _ Cg)) as (mg & eg & Hg & ->).
  change (nmul (B754_finite false mg eg Hg : f64) ninf) with (@ninf f64 _).
  pose proof (lclose_range _ _ _ _ _ Ci Bi ltac:(lra)) as Wi. pose proof (lclose_range _ _ _ _ _ Cj Bj ltac:(lra)) as Wj.
  pose proof (prod_within _ _ _ _ _ _ (bpow_ge_0 radix2 _) (bpow_ge_0 radix2 _) Wi Wj) as P. rewrite <- !bpow_plus in P.
  destruct (mul64 ri rj Fi Fj) as (Fp & Cp).
  { split; [apply Rle_trans with (2 := proj1 P)|apply Rle_trans with (1 := proj2 P)]; apply bpow_le; lia. }
  pose proof (lclose_range _ _ _ _ _ Cp P ltac:(lra)) as Wp.
  destruct (sqrt64 (nmul ri rj) Fp (lclose_pos _ _ _ Cp)) as (Fs & Cs).
  { rewrite <- (sqrt_Rsqr (bpow radix2 (-1022))) by apply bpow_ge_0. apply sqrt_le_1_alt. unfold Rsqr. rewrite <- bpow_plus.
    apply Rle_trans with (2 := proj1 Wp). apply bpow_le. lia. }
  destruct (pos_finite (nsqrt (nmul ri rj)) Fs (lclose_pos _ _ _ Cs)) as (m & e & B & ->). reflexivity.
Qed.

(** ** NICDM: relative error at most 750 eps for distances between 2^-300 and
    2^300; the misplaced self cells hold +infinity *)
Theorem C178_nicdm_sample :
  forall vexp vln vsum eps part (D : arr2 f64) train k test n,
    bpow radix2 (-53) <= eps <= bpow radix2 (-20) ->
    sum_close eps n vsum -> ln_close eps vln -> exp_accurate eps vexp -> part_ok part ->
    nrow D = n -> (Z.of_nat n <= 2 ^ 53)%Z ->
    (ncol D <= nrow D)%nat -> length train = ncol D -> NoDup train -> (forall s, In s train -> (s < nrow D)%nat) ->
    match test with None => True | Some t => forall s, In s t -> (s < nrow D)%nat end ->
    (forall i j, (i < nrow D)%nat -> (j < ncol D)%nat -> nth j train 0%nat <> i -> nisfin (at2 D i j) = true /\ within (-300) 300 (at2 D i j)) ->
    (0 < k < length train)%nat ->
    exists L (near : nat -> list f64),
      nicdm_sample vexp vln vsum part D (Z.of_nat k) "distance" train test = Ok L /\
      nrow L = (match test with None => nrow D | Some t => length t end) /\ ncol L = ncol D /\
      (forall i, (i < nrow D)%nat -> k_smallest (sample_others D train i) k (near i)) /\
      let R i := total (map B2R (near i)) / INR k in
      let g := exp (total (map (fun i => ln (R i)) (seq 0 n)) / INR n) in
      forall a j, (a < nrow L)%nat -> (j < ncol D)%nat ->
        let i := row_object test a in
        let formula := g * B2R (at2 D i j) / sqrt (R i * R (nth j train 0%nat)) in
        (nth j train 0%nat <> i -> test <> None \/ a <> j ->
           0 < formula /\ nisfin (at2 L a j) = true /\ Rabs (B2R (at2 L a j) - formula) <= 750 * eps * formula) /\
        (nth j train 0%nat = i -> test <> None \/ a = j -> at2 L a j = n0) /\
        (* the misplaced self cells *)
        (test = None -> nth j train 0%nat = i -> a <> j -> at2 L a j = ninf) /\
        (test = None -> nth j train 0%nat <> i -> a = j -> at2 L a j = n0).
Proof.
  intros vexp vln vsum eps part D train k test n He Hs Hln Hx PO Hr Hn53 Hn Hl Nd Ht Hte Hf Hk.
  unfold nicdm_sample. rewrite sample_checks by assumption. cbn [bind].
  change (check_valid_metric_parameter "distance") with (@Ok unit tt). cbn [bind].
  change (guard (is_sim "distance") NotImplementedError) with (@Ok unit tt). cbn [bind].
  rewrite (proj2 (existsb_ge_false (nrow D) train) Ht). cbn [guard bind].
  assert (Fo : forall i, (i < nrow D)%nat -> forall x, In x (sample_others D train i) -> nisfin x = true /\ within (-300) 300 x).
  { intros i Hi x Hx'. apply sample_others_in in Hx'. destruct Hx' as (j & Hj & Hne & ->). apply Hf; auto. lia. }
  assert (A : forall i, (i < nrow D)%nat -> exists s, nicdm_radius vsum part (set_cells train ninf D) (seq 0 (ncol D)) (Z.of_nat k) i = Ok (vmean vsum s) /\
    k_smallest (sample_others D train i) k s).
  { intros i Hi. rewrite <- Hl. apply (nicdm_radius_sample f64_cmp part PO vsum D train k i Nd); [|exact Hk]. intros x Hx'. now apply (Fo i Hi). }
  destruct (finite_choice (nrow D) _ A) as (near & Hnear).
  destruct (mapM_all (nicdm_radius vsum part (set_cells train ninf D) (seq 0 (ncol D)) (Z.of_nat k)) (seq 0 (nrow D))) as (rs & E).
  { intros i Hi. apply in_seq in Hi. destruct (A i) as (v & Ev & _); [lia|]. now exists (vmean vsum v). }
  rewrite E. cbn [bind].
  assert (Lr : length rs = nrow D) by (rewrite (mapM_length _ _ _ E); apply seq_length).
  assert (Nr : forall i, (i < nrow D)%nat -> nth i rs nnan = vmean vsum (near i)).
  { intros i Hi. destruct (Hnear i Hi) as (Ev & _). apply (mapM_nth _ _ _ i 0%nat nnan) in E; [|now rewrite seq_length].
    rewrite seq_nth in E by assumption. simpl (0 + i)%nat in E. rewrite Ev in E. congruence. }
  assert (G : guard match test with None => false | Some t => existsb (fun i : nat => (nrow D <=? i)%nat) t end IndexError = Ok tt).
  { destruct test as [t|]; [|reflexivity]. now rewrite (proj2 (existsb_ge_false (nrow D) t) Hte). }
  rewrite G. cbn [bind].
  destruct (sample_matrix D train test (fun i j => nicdm_val (local_geomean vexp vln vsum rs) (at2 (set_cells train ninf D) i j) (nth i rs nnan) (nth (nth j train 0%nat) rs nnan)) Hl Hte)
    as (L & EL & R1 & R2 & AL).
  exists L, near. split; [exact EL|]. split; [destruct test; [exact R1|rewrite R1, seq_length; reflexivity]|]. split; [exact R2|].
  split; [intros i Hi; now apply Hnear|]. set (R := fun i => total (map B2R (near i)) / INR k). set (g := exp (total (map (fun i => ln (R i)) (seq 0 n)) / INR n)).
  change (fun i => ln (total (map B2R (near i)) / INR k)) with (fun i => ln (R i)). rewrite Hr in *.
  assert (Kn : (k <= n)%nat) by lia.
  assert (RR : forall i, (i < n)%nat -> nisfin (nth i rs nnan) = true /\ lclose (4 * eps) (B2R (nth i rs nnan)) (R i) /\
      bpow radix2 (-300) <= R i <= bpow radix2 300).
  { intros i Hi. destruct (Hnear i Hi) as (_ & Ks). pose proof Ks as (Lk & _).
    destruct (mean64 eps n vsum He Hs Hn53 (near i)) as (B & F & C).
    - intros E0. rewrite E0 in Lk. cbn in Lk. lia.
    - rewrite Lk. exact Kn.
    - intros x Hx'. apply (Fo i Hi). destruct Ks as (_ & rest & Pm & _). apply (Permutation_in _ (Permutation_sym Pm)). apply in_app_iff. now left.
    - rewrite Nr by exact Hi. rewrite Lk in B, C. split; [exact F|]. split; [|exact B]. unfold vmean. rewrite Lk in *. exact C. }
  assert (Rn : rs <> []) by (intros ->; cbn in Lr; lia).
  destruct (geomean64 eps n vsum He Hs Hn53 vln vexp Hln Hx rs R Rn Lr RR) as (Bg & Fg & Cg). fold g in Bg, Cg.
  intros a j Ha Hj. set (i := row_object test a). specialize (AL a j Ha Hj).
  assert (Hi : (i < n)%nat).
  { unfold i, row_object. destruct test as [t|]; [apply Hte, nth_In; now rewrite R1 in Ha|]. now rewrite R1, seq_length in Ha. }
  assert (Hj' : (nth j train 0%nat < n)%nat) by (apply Ht, nth_In; lia).
  assert (Ec : at2 (set_cells train ninf D) i j = if (nth j train 0 =? i)%nat then ninf else at2 D i j).
  { rewrite set_cells_at, Hl. replace (j <? ncol D)%nat with true by (symmetry; apply Nat.ltb_lt; lia). cbn [andb]. now rewrite (Nat.eqb_sym i). }
  assert (AL' : at2 L a j = if (match test with None => (a =? j)%nat | Some t => (nth j train 0 =? i)%nat end) then n0
     else nicdm_val (local_geomean vexp vln vsum rs) (at2 (set_cells train ninf D) i j) (nth i rs nnan) (nth (nth j train 0%nat) rs nnan)).
  { rewrite AL. unfold i, row_object. destruct test; reflexivity. }
  clear AL. rewrite Ec in AL'. split; [|split; [|split]].
  - intros Hne Hc. rewrite AL'. destruct (Nat.eqb_spec (nth j train 0%nat) i) as [Es|Es]; [contradiction|].
    replace (match test with None => (a =? j)%nat | Some _ => false end) with false.
    2:{ destruct test; [reflexivity|]. destruct Hc as [Hc|Hc]; [congruence|]. symmetry. now apply Nat.eqb_neq. }
    destruct (Hf i j Hi Hj Es) as (Fd & Wd). destruct (RR i Hi) as (Fi & Ci & Bi). destruct (RR _ Hj') as (Fj & Cj & Bj).
    destruct (nicdm_val64 eps n He _ (at2 D i j) _ _ g (R i) (R (nth j train 0%nat)) Fg Fd Fi Fj Wd Cg Ci Cj Bg Bi Bj) as (Fv & Pf & Av).
    split; [exact Pf|]. split; [exact Fv|exact Av].
  - intros Hsf Hc. rewrite AL'. apply Nat.eqb_eq in Hsf. rewrite Hsf. destruct test; [reflexivity|]. destruct Hc as [Hc| ->]; [congruence|]. now rewrite Nat.eqb_refl.
  - intros -> Hsf Hc. rewrite AL'. apply Nat.eqb_eq in Hsf. rewrite Hsf. apply Nat.eqb_neq in Hc. rewrite Hc.
    destruct (RR i Hi) as (Fi & Ci & Bi). destruct (RR _ Hj') as (Fj & Cj & Bj).
    exact (nicdm_val_self eps _ _ _ g (R i) (R (nth j train 0%nat)) He Fg Fi Fj Cg Ci Cj Bi Bj).
  - intros -> Hsf ->. rewrite AL'. now rewrite Nat.eqb_refl.
Qed.

(** ** The hypotheses can be met: three objects on a line, the sample are the
    objects 2 and 0 *)
Definition sample3 : arr2 f64 := Arr2 3 2 (fun i j => at2 (line3 0) i (nth j [2; 0]%nat 0%nat)).
Example C178_case :
  exp_close (bpow radix2 (-52)) exp60 /\ NoDup [2; 0]%nat /\ (0 < 1 < length [2; 0]%nat)%nat /\
  forall i j, (i < nrow sample3)%nat -> (j < ncol sample3)%nat -> nth j [2; 0]%nat 0%nat <> i ->
    dist64 (at2 sample3 i j) /\ within (-300) 300 (at2 sample3 i j).
Proof.
  split; [exact exp60_close|]. split; [repeat constructor; cbn; intuition lia|]. split; [cbn; lia|].
  intros i j Hi Hj Hne. cbn [nrow ncol sample3] in *.
  assert (Hj3 : (nth j [2; 0]%nat 0%nat < 3)%nat) by (destruct j as [|[|j]]; cbn; lia).
  destruct (line3_at 0 i (nth j [2; 0]%nat 0%nat) ltac:(lia) Hi Hj3 ltac:(congruence)) as (Dd & (B & C) & _).
  split; [exact Dd|]. split.
  - apply Rle_trans with (2 := B). apply bpow_le. lia.
  - apply Rle_trans with (1 := C). apply bpow_le. lia.
Qed.

Print Assumptions C178_local_scaling_sample.
Print Assumptions C178_nicdm_sample.
