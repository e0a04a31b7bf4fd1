(** Localized centering on real data. *)
From Coq Require Import String.
From Coq Require Import ZArith Reals Lra Lia Psatz List Arith Bool Permutation.
From Verif Require Import Py Num NumT NumPow Arr Sort Conc S_LS S_Centering M_IO M_Hubness M_SNN M_LS M_Dist M_Centering P_SNN P_Vec P_Centering.
Import ListNotations.
Local Open Scope R_scope.

Lemma dotR_zero m u : dotR m u u = 0 -> forall f, (f < m)%nat -> u f = 0.
Proof.
  intros Z f Hf. assert (Hi : In f (seq 0 m)) by (apply in_seq; lia). revert Z Hi. unfold dotR. generalize (seq 0 m).
  induction l as [|a l IH]; [intros _ []|]. simpl. change (fold_right Rplus 0) with rsum. intros E.
  assert (P : 0 <= rsum (map (fun f => u f * u f) l)).
  { apply rsum_nonneg. intros x Hx. apply in_map_iff in Hx. destruct Hx as (g & <- & _). nra. }
  intros [->|Hi]; [nra|]. apply IH; [nra|assumption].
Qed.

Lemma unit_rows_fin (X : arr2 xr) x : finite2 X x ->
  finite2 (unit_rows xsum X) (fun i => unitR (ncol X) (x i)).
Proof.
  intros HX i f Hi Hf. cbn [unit_rows nrow ncol at2] in *.
  rewrite (xs_fin _ (fun f => x i f * x i f)) by (intros a Ha; apply in_seq in Ha; rewrite HX by lia; reflexivity).
  change (rsum _) with (dotR (ncol X) (x i) (x i)). rewrite HX by assumption. unfold unitR.
  pose proof (dotR_pos (ncol X) (x i)) as P.
  cbn [nsqrt Num_xr xsqrt]. destruct (Rlt_dec (dotR (ncol X) (x i) (x i)) 0) as [Q|_]; [lra|]. fold (normR (ncol X) (x i)).
  destruct (Req_EM_T (dotR (ncol X) (x i) (x i)) 0) as [Z|Z].
  - rewrite (dotR_zero _ _ Z f Hf). unfold normR. rewrite Z, sqrt_0. cbn. destruct (Req_EM_T 0 0) as [_|]; [|contradiction].
    cbn. destruct (Req_EM_T 10000000 0); [lra|]. destruct (Req_EM_T (1 / 10000000) 0); [lra|]. f_equal. lra.
  - assert (Q : 0 < normR (ncol X) (x i)) by (apply sqrt_lt_R0; lra).
    assert (E : neq (XFin (normR (ncol X) (x i))) n0 = false).
    { cbn. destruct (Req_EM_T (normR (ncol X) (x i)) 0); [lra|reflexivity]. }
    rewrite E. apply xdiv_fin. lra.
Qed.

Lemma unitR_scale m c u f : 0 < c -> unitR m (fun g => c * u g) f = unitR m u f.
Proof.
  intros Hc. unfold unitR, normR. rewrite dotR_scal_l, dotR_scal_r.
  destruct (Req_EM_T (dotR m u u) 0) as [Z|Z].
  - rewrite Z. destruct (Req_EM_T (c * (c * 0)) 0) as [_|Q]; [reflexivity|]. exfalso. apply Q. ring.
  - pose proof (dotR_pos m u). destruct (Req_EM_T (c * (c * dotR m u u)) 0) as [Q|_].
    + exfalso. apply Rmult_integral in Q. destruct Q as [Q|Q]; [lra|]. apply Rmult_integral in Q. lra.
    + rewrite <- Rmult_assoc, sqrt_mult by nra. rewrite sqrt_square by lra. assert (0 < sqrt (dotR m u u)) by (apply sqrt_lt_R0; lra). field. lra.
Qed.

Lemma matmul_fin (A B : arr2 xr) a b : finite2 A a -> finite2 B b -> ncol A = nrow B ->
  exists C, matmul xsum A B = Ok C /\ nrow C = nrow A /\ ncol C = ncol B /\
    finite2 C (fun i j => dotR (ncol A) (a i) (fun f => b f j)).
Proof.
  intros HA HB E. unfold matmul. rewrite E, Nat.eqb_refl. cbn [negb guard bind]. eexists. split; [reflexivity|].
  split; [reflexivity|]. split; [reflexivity|]. intros i j Hi Hj. cbn [nrow ncol at2] in *.
  rewrite <- E. apply vdot_fin; intros f Hf; [apply HA|apply HB]; lia.
Qed.

Lemma transpose_fin (A : arr2 xr) a : finite2 A a -> finite2 (transpose A) (fun i j => a j i).
Proof. intros H i j Hi Hj. cbn [transpose at2 nrow ncol] in *. now apply H. Qed.

Lemma NoDup_app_r {A} (l1 l2 : list A) : NoDup (l1 ++ l2) -> NoDup l2.
Proof. induction l1; simpl; intros H; [assumption|]. inversion H; auto. Qed.
Lemma NoDup_app_l {A} (l1 l2 : list A) : NoDup (l1 ++ l2) -> NoDup l1.
Proof. induction l1; simpl; intros H; constructor; inversion H; subst; auto. intros Q. apply H2. apply in_or_app. now left. Qed.
Lemma NoDup_app_disj {A} (l1 l2 : list A) x : NoDup (l1 ++ l2) -> In x l1 -> ~ In x l2.
Proof.
  induction l1 as [|a l1 IH]; simpl; intros H; [intros []|]. inversion H; subst. intros [->|Hx]; [|auto].
  intros Q. apply H2. apply in_or_app. now right.
Qed.

(** first part of an argpartition versus the rest *)
Lemma argpart_split (l : list xr) ks p k a b : is_argpart l ks p -> In k ks -> (k < length l)%nat ->
  In a (firstn k p) -> In b (skipn k p) -> sle (vat l a) (vat l b) = true.
Proof.
  intros (Pm & H) Hk Hlt Ha Hb. pose proof (Permutation_length Pm) as L. rewrite seq_length in L.
  apply (In_nth _ _ 0%nat) in Ha. destruct Ha as (ia & Hia & <-). rewrite firstn_length in Hia.
  apply (In_nth _ _ 0%nat) in Hb. destruct Hb as (ib & Hib & <-). rewrite skipn_length in Hib.
  assert (Ea : nth ia (firstn k p) 0%nat = nth ia p 0%nat) by (rewrite <- (firstn_skipn k p) at 2; rewrite app_nth1; [reflexivity|rewrite firstn_length; lia]).
  assert (Eb : nth ib (skipn k p) 0%nat = nth (k + ib) p 0%nat).
  { rewrite <- (firstn_skipn k p) at 2. rewrite app_nth2; rewrite firstn_length; [|lia]. f_equal. lia. }
  rewrite Ea, Eb. destruct (H k Hk ia) as (H1 & _). destruct (H k Hk (k + ib)%nat) as (_ & H2).
  destruct (Nat.eq_dec ib 0) as [-> | Hne].
  - rewrite Nat.add_0_r. apply H1. lia.
  - eapply (sle_trans xr_cmp); [apply H1; lia|apply H2; lia].
Qed.

Lemma rev_tail_pos {A} (l : list A) kappa : (0 < kappa <= length l)%nat ->
  rev_tail l (Z.of_nat kappa) = rev (skipn (length l - kappa) l).
Proof.
  intros H. unfold rev_tail. destruct (Z.ltb_spec (- Z.of_nat kappa - 1) 0); [|lia]. do 2 f_equal. lia.
Qed.

Lemma pool_vector {V} {N : Num V} (n : nat) (la : list V) buf :
  pool_run Nat.eqb (fun _ => n0) (map (fun i => [(i, nth i la nnan)]) (seq 0 n)) buf ->
  forall i, (i < n)%nat -> buf i = nth i la nnan.
Proof.
  intros H i Hi. set (tasks := map (fun i => [(i, nth i la nnan)]) (seq 0 n)) in H.
  assert (F : forall t c v, In t tasks -> In (c, v) t -> v = nth c la nnan).
  { intros t c v Ht Hv. apply in_map_iff in Ht. destruct Ht as (a & <- & _). destruct Hv as [E|[]]. now injection E as <- <-. }
  destruct (pool_run_fun Nat.eqb Nat.eqb_eq (fun _ => n0) buf tasks (fun i => nth i la nnan) F H i) as (A & _).
  apply A. exists [(i, nth i la nnan)]. split; [apply in_map_iff; exists i; split; [reflexivity|apply in_seq; lia]|now left].
Qed.

Section LC.
  Variable argpart : list xr -> list nat -> list nat.
  Hypothesis AP : argpart_ok argpart.

  (** neighbour list computed for training row [j] with unit vectors [w] *)
  Definition lc_nn (m n : nat) (w : nat -> nat -> R) (kappa : nat) (j : nat) : list nat :=
    rev (skipn (n - kappa) (argpart (map (fun t => XFin (dotR m (w j) (w t))) (seq 0 n)) [(n - kappa)%nat])).

  Lemma lc_nn_perm m n w kappa j : (0 < kappa <= n)%nat ->
    Permutation (argpart (map (fun t => XFin (dotR m (w j) (w t))) (seq 0 n)) [(n - kappa)%nat]) (seq 0 n).
  Proof.
    intros H. destruct (AP (map (fun t => XFin (dotR m (w j) (w t))) (seq 0 n)) [(n - kappa)%nat]) as (P & _).
    - intros k [<-|[]]. rewrite map_length, seq_length. lia.
    - now rewrite map_length, seq_length in P.
  Qed.

  Lemma lc_nn_top m n w kappa j : (0 < kappa <= n)%nat ->
    top_k (fun a b => b <= a) (fun t => dotR m (w j) (w t)) (seq 0 n) kappa (lc_nn m n w kappa j).
  Proof.
    intros H. pose proof (lc_nn_perm m n w kappa j H) as P. unfold lc_nn.
    set (l := map (fun t => XFin (dotR m (w j) (w t))) (seq 0 n)) in *. set (p := argpart l [(n - kappa)%nat]) in *.
    assert (Lp : length p = n) by (rewrite (Permutation_length P); apply seq_length).
    assert (Ll : length l = n) by (unfold l; now rewrite map_length, seq_length).
    split; [rewrite rev_length, skipn_length; lia|]. split; [|split].
    - apply NoDup_rev. pose proof (Permutation_NoDup (Permutation_sym P) (seq_NoDup n 0)) as ND.
      rewrite <- (firstn_skipn (n - kappa) p) in ND. now apply NoDup_app_r in ND.
    - intros a Ha. apply in_rev in Ha. eapply Permutation_in; [exact P|]. rewrite <- (firstn_skipn (n - kappa) p). apply in_or_app. now right.
    - intros a b Ha Hb Hnb. apply in_rev in Ha.
      assert (Hb' : In b (firstn (n - kappa) p)).
      { eapply Permutation_in in Hb; [|symmetry; exact P]. rewrite <- (firstn_skipn (n - kappa) p) in Hb. apply in_app_or in Hb.
        destruct Hb as [Hb|Hb]; [assumption|]. exfalso. apply Hnb. now apply -> in_rev. }
      assert (IA : is_argpart l [(n - kappa)%nat] p) by (apply AP; intros k [<-|[]]; lia).
      pose proof (argpart_split l [(n - kappa)%nat] p (n - kappa) b a IA (or_introl eq_refl) ltac:(lia) Hb' Ha) as Q.
      assert (In a (seq 0 n)).
      { eapply Permutation_in; [exact P|]. rewrite <- (firstn_skipn (n - kappa) p). apply in_or_app. now right. }
      assert (In b (seq 0 n)) by exact Hb.
      apply in_seq in H0. apply in_seq in H1.
      assert (V : forall t, (t < n)%nat -> vat l t = XFin (dotR m (w j) (w t))).
      { intros t Ht. unfold vat, l. rewrite (nth_indep _ _ (XFin (dotR m (w j) (w 0%nat)))) by (rewrite map_length, seq_length; lia).
        rewrite (map_nth (fun t => XFin (dotR m (w j) (w t))) (seq 0 n) 0%nat t). now rewrite seq_nth by lia. }
      rewrite !V in Q by lia. unfold sle in Q. cbn in Q. destruct (Rle_dec _ _); [assumption|discriminate].
  Qed.

  Definition lc_aff (m n : nat) (w : nat -> nat -> R) (kappa : nat) (j : nat) : R :=
    dotR m (w j) (centroidR w (lc_nn m n w kappa j)).

  (** the subtracted penalty *)
  Definition lc_pen (n : nat) (la : nat -> R) (gamma : R) (j : nat) : R :=
    if Req_EM_T gamma 1 then la j
    else if existsb (fun i => if Rlt_dec (la i) 0 then true else false) (seq 0 n) then la j
    else powR (la j) gamma.

  Lemma local_affinity_fin (W S : arr2 xr) w kappa j : finite2 W w -> nrow S = nrow W -> ncol S = nrow W ->
    finite2 S (fun i j => dotR (ncol W) (w i) (w j)) -> (0 < kappa <= nrow W)%nat -> (j < nrow W)%nat ->
    local_affinity xsum argpart W S (Z.of_nat kappa) j = Ok (XFin (lc_aff (ncol W) (nrow W) w kappa j)).
  Proof.
    intros HW R1 R2 HS Hk Hj. unfold local_affinity, rowl. rewrite R2.
    rewrite (map_ext_in _ (fun t => XFin (dotR (ncol W) (w j) (w t)))) by (intros t Ht; apply in_seq in Ht; apply HS; lia).
    unfold np_argpartition. rewrite map_length, seq_length.
    assert (Lg : kth_legal (nrow W) [(- Z.of_nat kappa)%Z] = true).
    { unfold kth_legal. cbn [forallb]. rewrite andb_true_r. apply andb_true_iff. split; [apply Z.leb_le|apply Z.ltb_lt]; lia. }
    rewrite Lg. cbn [map bind]. replace (py_norm (nrow W) (- Z.of_nat kappa)) with (nrow W - kappa)%nat.
    2:{ unfold py_norm. destruct (Z.ltb_spec (- Z.of_nat kappa) 0); lia. }
    pose proof (lc_nn_perm (ncol W) (nrow W) w kappa j Hk) as P. pose proof (Permutation_length P) as L. rewrite seq_length in L.
    rewrite rev_tail_pos by (rewrite L; assumption). rewrite L. fold (lc_nn (ncol W) (nrow W) w kappa j).
    destruct (lc_nn_top (ncol W) (nrow W) w kappa j Hk) as (Ln & _ & Hin & _).
    f_equal. apply vdot_fin; [intros f Hf; apply HW; lia|]. intros f Hf. apply rows_mean_fin.
    - intros Z. rewrite Z in Ln. simpl in Ln. lia.
    - intros i Hi. apply Hin in Hi. apply in_seq in Hi. apply HW; lia.
  Qed.

  Lemma mapM_const_ok {A B} (f : A -> result B) (g : A -> B) l : (forall a, In a l -> f a = Ok (g a)) -> mapM f l = Ok (map g l).
  Proof.
    induction l as [|a l IH]; intros H; [reflexivity|]. cbn [mapM map]. rewrite (H a) by now left. cbn [bind].
    rewrite IH by (intros; apply H; now right). reflexivity.
  Qed.

  Lemma lcent_finish_fin (sim : arr2 xr) s n buf la gamma : finite2 sim s -> ncol sim = n ->
    (forall j, (j < n)%nat -> buf j = XFin (la j)) -> 0 <= gamma ->
    finite2 (lcent_finish xpow sim n buf (XFin gamma)) (fun i j => s i j - lc_pen n la gamma j).
  Proof.
    intros Hs Hc Hb Hg i j Hi Hj. unfold lcent_finish in *. cbn [nrow ncol at2] in *. rewrite Hs by assumption. unfold lc_pen.
    assert (Ee : existsb (fun i => nlt (buf i) n0) (seq 0 n) = existsb (fun i => if Rlt_dec (la i) 0 then true else false) (seq 0 n)).
    { clear - Hb. assert (H : forall a, In a (seq 0 n) -> buf a = XFin (la a)) by (intros a Ha; apply Hb; apply in_seq in Ha; lia).
      revert H. generalize (seq 0 n). induction l as [|a l IH]; intros H; [reflexivity|]. cbn [existsb]. rewrite IH by (intros; apply H; now right).
      rewrite (H a) by now left. reflexivity. }
    rewrite Ee. replace (neq (XFin gamma) n1) with (if Req_EM_T gamma 1 then true else false) by reflexivity.
    assert (Bj : buf j = XFin (la j)) by (apply Hb; lia).
    destruct (Req_EM_T gamma 1) as [E1|E1]; cbn [negb andb].
    - rewrite Bj. reflexivity.
    - destruct (existsb (fun i => if Rlt_dec (la i) 0 then true else false) (seq 0 n)) eqn:E; cbn [negb].
      + rewrite Bj. reflexivity.
      + rewrite Bj. assert (Nn : 0 <= la j).
        { destruct (Rlt_dec (la j) 0) as [Q|]; [|lra]. exfalso. assert (T : existsb (fun i => if Rlt_dec (la i) 0 then true else false) (seq 0 n) = true).
          { apply existsb_exists. exists j. split; [apply in_seq; lia|]. destruct (Rlt_dec (la j) 0); [reflexivity|contradiction]. }
          congruence. }
        assert (Ep : xpow (XFin (la j)) (XFin gamma) = XFin (powR (la j) gamma)).
        { unfold xpow, powR. destruct (Req_EM_T gamma 0); [reflexivity|]. destruct (Rlt_dec (la j) 0); [lra|].
          destruct (Req_EM_T (la j) 0); [|reflexivity]. destruct (Rlt_dec gamma 0); [lra|reflexivity]. }
        rewrite Ep. reflexivity.
  Qed.

  Lemma lcent_explicit (X YY : arr2 xr) (Y : option (arr2 xr)) x y kappa gamma cpu nj res :
    YY = match Y with None => X | Some Y => Y end -> finite2 X x -> finite2 YY y -> ncol X = ncol YY ->
    (0 < kappa <= nrow YY)%nat -> 0 <= gamma ->
    localized_centering xsum xpow argpart X Y (Z.of_nat kappa) (XFin gamma) cpu nj res ->
    let m := ncol X in
    exists L, res = Ok L /\ nrow L = nrow X /\ ncol L = nrow YY /\
      finite2 L (fun i j => dotR m (unitR m (x i)) (unitR m (y j)) -
         lc_pen (nrow YY) (lc_aff m (nrow YY) (fun j => unitR m (y j)) kappa) gamma j).
  Proof.
    intros EY HX HY Em Hk Hg H m.
    pose proof (unit_rows_fin X x HX) as UX. pose proof (unit_rows_fin YY y HY) as UY. rewrite <- Em in UY.
    set (W := unit_rows xsum YY) in *. set (w := fun j => unitR (ncol X) (y j)) in *.
    assert (RW : nrow W = nrow YY) by reflexivity. assert (CW : ncol W = ncol X) by (symmetry; exact Em).
    destruct (matmul_fin (unit_rows xsum X) (transpose W) _ _ UX (transpose_fin W w UY)) as (sim & Es & Rs & Cs & Fs); [cbn; lia|].
    destruct (matmul_fin W (transpose W) _ _ UY (transpose_fin W w UY)) as (S & ES & RS & CS & FS); [reflexivity|].
    cbn [unit_rows transpose nrow ncol] in Rs, Cs, RS, CS, Fs.
    assert (EL : mapM (local_affinity xsum argpart W S (Z.of_nat kappa)) (seq 0 (nrow W)) =
                 Ok (map (fun j => XFin (lc_aff m (nrow YY) w kappa j)) (seq 0 (nrow W)))).
    { apply mapM_const_ok. intros j Hj. apply in_seq in Hj. unfold m. rewrite <- CW, <- RW. apply local_affinity_fin; auto; lia. }
    assert (LL : forall j, (j < nrow W)%nat -> nth j (map (fun j => XFin (lc_aff m (nrow YY) w kappa j)) (seq 0 (nrow W))) nnan = XFin (lc_aff m (nrow YY) w kappa j)).
    { intros j Hj. rewrite (nth_indep _ _ (XFin (lc_aff m (nrow YY) w kappa 0))) by (rewrite map_length, seq_length; lia).
      rewrite (map_nth (fun j => XFin (lc_aff m (nrow YY) w kappa j))). now rewrite seq_nth. }
    assert (Goal : forall buf, (forall j, (j < nrow W)%nat -> buf j = XFin (lc_aff m (nrow YY) w kappa j)) ->
      exists L, Ok (lcent_finish xpow sim (nrow W) buf (XFin gamma)) = Ok L /\ nrow L = nrow X /\ ncol L = nrow YY /\
      finite2 L (fun i j => dotR m (unitR m (x i)) (unitR m (y j)) - lc_pen (nrow YY) (lc_aff m (nrow YY) (fun j => unitR m (y j)) kappa) gamma j)).
    { intros buf Hb. eexists. split; [reflexivity|]. split; [exact Rs|]. split; [exact Cs|].
      apply (lcent_finish_fin sim _ (nrow W) buf (lc_aff m (nrow YY) w kappa) gamma Fs Cs Hb Hg). }
    destruct H as [e He | sim' S' e W' E1 E2 E3 | sim' S' la W' Hj E1 E2 E3 | sim' S' la buf W' Hj E1 E2 E3 Hp].
    - rewrite <- EY in He. fold W in He. rewrite Es in He. discriminate.
    - unfold W' in *. rewrite <- EY in E1, E2, E3. fold W in E1, E2, E3. rewrite ES in E2. injection E2 as <-. rewrite EL in E3. discriminate.
    - unfold W' in *. rewrite <- EY in *. fold W in E1, E2, E3 |- *. rewrite Es in E1. injection E1 as <-. rewrite ES in E2. injection E2 as <-.
      rewrite EL in E3. injection E3 as <-. apply Goal. exact LL.
    - unfold W' in *. rewrite <- EY in *. fold W in E1, E2, E3, Hp |- *. rewrite Es in E1. injection E1 as <-. rewrite ES in E2. injection E2 as <-.
      rewrite EL in E3. injection E3 as <-. apply Goal. intros j Hj'. rewrite (pool_vector (nrow W) _ buf Hp j Hj'). now apply LL.
  Qed.
End LC.
