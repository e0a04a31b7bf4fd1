(** Local DisSim on real data. *)
From Coq Require Import String.
From Coq Require Import ZArith Reals Lra Lia Psatz List Arith Bool Permutation.
From Verif Require Import Py Num NumT NumPow Arr Sort Conc S_LS S_Centering M_IO M_Hubness M_SNN M_LS M_Dist M_Centering P_SNN P_Vec P_Centering P_LCent.
Import ListNotations.
Local Open Scope R_scope.

(** the row a neighbour search sees: scores, +inf for excluded points *)
Definition masked (ex : nat -> bool) (s : nat -> R) (n : nat) : list xr :=
  map (fun t => if ex t then XPInf else XFin (s t)) (seq 0 n).

Lemma masked_vat ex s n t : (t < n)%nat -> vat (masked ex s n) t = if ex t then XPInf else XFin (s t).
Proof.
  intros Ht. unfold vat, masked. rewrite (nth_indep _ _ (if ex 0%nat then XPInf else XFin (s 0%nat))) by (rewrite map_length, seq_length; lia).
  rewrite (map_nth (fun t => if ex t then XPInf else XFin (s t)) (seq 0 n) 0%nat t). now rewrite seq_nth by lia.
Qed.

Section DSL.
  Variable argpart : list xr -> list nat -> list nat.
  Hypothesis AP : argpart_ok argpart.

  Definition d_nn (ex : nat -> bool) (s : nat -> R) (n k : nat) : list nat := firstn k (argpart (masked ex s n) [k]).

  Lemma d_nn_top ex s n k : (k < n)%nat -> (k <= length (filter (fun t => negb (ex t)) (seq 0 n)))%nat ->
    top_k Rle s (filter (fun t => negb (ex t)) (seq 0 n)) k (d_nn ex s n k).
  Proof.
    intros Hk Hc. unfold d_nn. set (l := masked ex s n). set (p := argpart l [k]).
    assert (Ll : length l = n) by (unfold l, masked; now rewrite map_length, seq_length).
    assert (IA : is_argpart l [k] p) by (apply AP; intros t [<-|[]]; lia).
    destruct (IA) as (P & _). rewrite Ll in P.
    assert (Lp : length p = n) by (rewrite (Permutation_length P); apply seq_length).
    assert (ND : NoDup p) by (apply (Permutation_NoDup (Permutation_sym P)), seq_NoDup).
    assert (Hin : forall t, In t p <-> (t < n)%nat).
    { intros t. split; intros H.
      - eapply Permutation_in in H; [|exact P]. apply in_seq in H. lia.
      - eapply Permutation_in; [symmetry; exact P|]. apply in_seq. lia. }
    assert (Sp : forall a b, In a (firstn k p) -> In b (skipn k p) -> sle (vat l a) (vat l b) = true).
    { intros a b Ha Hb. apply (argpart_split l [k] p k a b IA (or_introl eq_refl)); [lia|assumption|assumption]. }
    assert (Inf : forall a, In a (firstn k p) -> In a p) by (intros a Ha; rewrite <- (firstn_skipn k p); apply in_or_app; now left).
    assert (Ins : forall a, In a (skipn k p) -> In a p) by (intros a Ha; rewrite <- (firstn_skipn k p); apply in_or_app; now right).
    assert (Nex : forall a, In a (firstn k p) -> ex a = false).
    { intros a Ha. destruct (ex a) eqn:Ea; [|reflexivity]. exfalso.
      assert (Hall : forall b, In b (skipn k p) -> ex b = true).
      { intros b Hb. pose proof (Sp a b Ha Hb) as Q. unfold l in Q. rewrite !masked_vat in Q by (apply Hin; auto). rewrite Ea in Q.
        destruct (ex b); [reflexivity|]. discriminate Q. }
      assert (Hincl : incl (a :: filter (fun t => negb (ex t)) (seq 0 n)) (firstn k p)).
      { intros t [<-|Ht]; [assumption|]. apply filter_In in Ht. destruct Ht as (Ht & Et). apply in_seq in Ht.
        assert (Hp : In t p) by (apply Hin; lia). rewrite <- (firstn_skipn k p) in Hp. apply in_app_or in Hp. destruct Hp as [Hp|Hp]; [assumption|].
        apply Hall in Hp. rewrite Hp in Et. discriminate. }
      apply NoDup_incl_length in Hincl.
      - rewrite firstn_length, Lp in Hincl. cbn [length] in Hincl. lia.
      - constructor; [|apply NoDup_filter, seq_NoDup]. intros Q. apply filter_In in Q. destruct Q as (_ & Q). rewrite Ea in Q. discriminate. }
    split; [rewrite firstn_length; lia|]. split; [|split].
    - rewrite <- (firstn_skipn k p) in ND. now apply NoDup_app_l in ND.
    - intros a Ha. apply filter_In. split; [apply in_seq; split; [lia|]; apply Hin; auto|]. now rewrite Nex.
    - intros a b Ha Hb Hnb. apply filter_In in Hb. destruct Hb as (Hb & Eb). apply in_seq in Hb.
      assert (Hb' : In b (skipn k p)).
      { assert (Hp : In b p) by (apply Hin; lia). rewrite <- (firstn_skipn k p) in Hp. apply in_app_or in Hp. destruct Hp; [contradiction|assumption]. }
      pose proof (Sp a b Ha Hb') as Q. unfold l in Q. rewrite !masked_vat in Q by (try lia; apply Hin; auto).
      rewrite (Nex a Ha) in Q. destruct (ex b); [discriminate|]. unfold sle in Q. cbn in Q. destruct (Rle_dec (s a) (s b)); [assumption|discriminate].
  Qed.
End DSL.

(** the local centroids, for any schedule and any number type *)
Lemma dsl_serial_at {V} {N : Num V} (D Y : arr2 V) (g : nat -> nat -> V) : forall n i f,
  at2 (for_ n (fun i M => setrow M i 0 (ncol Y) (g i)) (full2 (nrow D) (ncol Y) n0)) i f =
  if ((i <? n) && (f <? ncol Y))%bool then g i f else n0.
Proof.
  induction n as [|n IH]; intros i f; [reflexivity|]. rewrite for_S. cbn [setrow at2]. rewrite IH.
  destruct (Nat.eqb_spec i n) as [-> | E].
  - cbn [andb Nat.leb]. destruct (Nat.ltb_spec n (S n)); [|lia]. rewrite Nat.ltb_irrefl. cbn [andb]. reflexivity.
  - cbn [andb]. destruct (Nat.ltb_spec i n), (Nat.ltb_spec i (S n)); try lia; reflexivity.
Qed.

Lemma celleq_spec (a b : nat * nat) : celleq a b = true <-> a = b.
Proof.
  destruct a as [a1 a2], b as [b1 b2]. unfold celleq. cbn [fst snd]. rewrite andb_true_iff, !Nat.eqb_eq. split.
  - intros [-> ->]. reflexivity.
  - intros E. now injection E.
Qed.

Lemma dsl_centroids_out {V} {N : Num V} vsum argpart (D Y : arr2 V) k nj res :
  dsl_centroids vsum argpart D Y k nj res ->
  match mapM (dsl_nn argpart D k) (seq 0 (nrow D)) with
  | Raise e => res = Raise e
  | Ok nn => exists c, res = Ok c /\ forall i f, (i < nrow D)%nat -> (f < ncol Y)%nat -> c i f = rows_mean vsum Y (nth i nn []) f
  end.
Proof.
  intros [e He | nn Hj He | nn buf Hj He Hp].
  - rewrite He. reflexivity.
  - rewrite He. eexists. split; [reflexivity|]. intros i f Hi Hf.
    rewrite (dsl_serial_at D Y (fun i => rows_mean vsum Y (nth i nn []))).
    destruct (Nat.ltb_spec i (nrow D)), (Nat.ltb_spec f (ncol Y)); try lia. reflexivity.
  - rewrite He. eexists. split; [reflexivity|]. intros i f Hi Hf.
    set (tasks := map (fun i => map (fun f => ((i, f), rows_mean vsum Y (nth i nn []) f)) (seq 0 (ncol Y))) (seq 0 (nrow D))) in Hp.
    assert (F : forall t c v, In t tasks -> In (c, v) t -> v = rows_mean vsum Y (nth (fst c) nn []) (snd c)).
    { intros t c v Ht Hv. apply in_map_iff in Ht. destruct Ht as (a & <- & _). apply in_map_iff in Hv. destruct Hv as (g & E & _).
      injection E as <- <-. reflexivity. }
    destruct (pool_run_fun celleq celleq_spec (fun _ => n0) buf tasks (fun c : nat * nat => rows_mean vsum Y (nth (fst c) nn []) (snd c)) F Hp (i, f)) as (A & _).
    apply A. exists (map (fun f => ((i, f), rows_mean vsum Y (nth i nn []) f)) (seq 0 (ncol Y))). split.
    + apply in_map_iff. exists i. split; [reflexivity|]. apply in_seq. lia.
    + apply in_map_iff. exists f. split; [reflexivity|]. apply in_seq. lia.
Qed.

Lemma dsl_centroids_exists {V} {N : Num V} vsum argpart (D Y : arr2 V) k nj : exists res, dsl_centroids vsum argpart D Y k nj res.
Proof.
  destruct (mapM (dsl_nn argpart D k) (seq 0 (nrow D))) as [nn|e] eqn:E.
  - destruct (Z_le_gt_dec nj 1); eexists; [eapply dc_serial|eapply dc_pool]; eauto; [lia|]. apply pool_run_exists.
  - eexists. eapply dc_fail; eauto.
Qed.

Section DSL2.
  Variable argpart : list xr -> list nat -> list nat.
  Hypothesis AP : argpart_ok argpart.

  Lemma rowl_masked (D : arr2 xr) (ex : nat -> bool) (s : nat -> R) i n : ncol D = n ->
    (forall t, (t < n)%nat -> at2 D i t = if ex t then XPInf else XFin (s t)) -> rowl D i = masked ex s n.
  Proof. intros E H. unfold rowl, masked. rewrite E. apply map_ext_in. intros t Ht. apply in_seq in Ht. apply H. lia. Qed.

  Lemma dsl_nn_ok (D : arr2 xr) (ex : nat -> bool) (s : nat -> R) i n k : ncol D = n -> (k < n)%nat ->
    (forall t, (t < n)%nat -> at2 D i t = if ex t then XPInf else XFin (s t)) ->
    dsl_nn argpart D (Z.of_nat k) i = Ok (d_nn argpart ex s n k).
  Proof.
    intros E Hk H. unfold dsl_nn. rewrite (rowl_masked D ex s i n E H). unfold np_argpartition.
    assert (Ll : length (masked ex s n) = n) by (unfold masked; now rewrite map_length, seq_length). rewrite Ll.
    assert (Lg : kth_legal n [Z.of_nat k] = true).
    { unfold kth_legal. cbn [forallb]. rewrite andb_true_r. apply andb_true_iff. split; [apply Z.leb_le|apply Z.ltb_lt]; lia. }
    rewrite Lg. cbn [map bind]. rewrite prefix_nat. unfold py_norm. destruct (Z.ltb_spec (Z.of_nat k) 0); [lia|]. rewrite Nat2Z.id. reflexivity.
  Qed.

  (** centroids of all rows of [D], with exclusions *)
  Lemma dsl_centroids_fin (D Y : arr2 xr) (ex : nat -> nat -> bool) (s : nat -> nat -> R) y n k nj res : ncol D = n -> nrow Y = n -> finite2 Y y -> (0 < k < n)%nat ->
    (forall i, (i < nrow D)%nat -> (k <= length (filter (fun t => negb (ex i t)) (seq 0 n)))%nat) ->
    (forall i t, (i < nrow D)%nat -> (t < n)%nat -> at2 D i t = if ex i t then XPInf else XFin (s i t)) ->
    dsl_centroids xsum argpart D Y (Z.of_nat k) nj res ->
    exists c, res = Ok c /\ forall i f, (i < nrow D)%nat -> (f < ncol Y)%nat ->
      c i f = XFin (centroidR y (d_nn argpart (ex i) (s i) n k) f).
  Proof.
    intros E Ey HY Hk Hc HD H. apply dsl_centroids_out in H.
    rewrite (mapM_const_ok (dsl_nn argpart D (Z.of_nat k)) (fun i => d_nn argpart (ex i) (s i) n k)) in H.
    2:{ intros i Hi. apply in_seq in Hi. apply dsl_nn_ok; [assumption|lia|]. intros t Ht. apply HD; lia. }
    destruct H as (c & -> & Hcf). exists c. split; [reflexivity|]. intros i f Hi Hf. rewrite Hcf by assumption.
    rewrite (nth_indep _ _ (d_nn argpart (ex 0%nat) (s 0%nat) n k)) by (rewrite map_length, seq_length; lia).
    rewrite (map_nth (fun i => d_nn argpart (ex i) (s i) n k) (seq 0 (nrow D)) 0%nat i). rewrite seq_nth by assumption. cbn [plus].
    destruct (d_nn_top argpart AP (ex i) (s i) n k ltac:(lia) (Hc i Hi)) as (Ln & _ & Hin & _).
    apply rows_mean_fin.
    - intros Z. rewrite Z in Ln. cbn in Ln. lia.
    - intros t Ht. apply Hin in Ht. apply filter_In in Ht. destruct Ht as (Ht & _). apply in_seq in Ht. apply HY; lia.
  Qed.

  Lemma dsl_sq_fin (X : arr2 xr) x c c' i : finite2 X x -> (i < nrow X)%nat ->
    (forall f, (f < ncol X)%nat -> c i f = XFin (c' f)) -> dsl_sq xsum X c i = XFin (sqdistR (ncol X) (x i) c').
  Proof. intros HX Hi Hc. apply xs_fin. intros f Hf. apply in_seq in Hf. rewrite HX, Hc by lia. reflexivity. Qed.

  (** squared distance of a point to the centroid of its neighbour list *)
  Definition cent_sq (m : nat) (p : nat -> R) (y : nat -> nat -> R) (l : list nat) : R := sqdistR m p (centroidR y l).

  Lemma filter_neq_len n i : (i < n)%nat -> length (filter (fun t => negb (t =? i)%nat) (seq 0 n)) = (n - 1)%nat.
  Proof.
    intros Hi. replace n with (i + S (n - S i))%nat at 1 by lia. rewrite seq_app, filter_app, app_length. cbn [seq filter plus].
    rewrite Nat.eqb_refl. cbn [negb].
    assert (F : forall l, (forall t, In t l -> t <> i) -> filter (fun t => negb (t =? i)%nat) l = l).
    { induction l as [|a l IH]; intros H; [reflexivity|]. cbn [filter]. destruct (Nat.eqb_spec a i) as [E|_]; [exfalso; apply (H a); [now left|assumption]|].
      cbn [negb]. f_equal. apply IH. intros t Ht. apply H. now right. }
    rewrite !F; [rewrite !seq_length; lia| |]; intros t Ht; apply in_seq in Ht; lia.
  Qed.

  Lemma dsl_self_explicit (n m : nat) x k nj res : (0 < m)%nat -> (0 < k < n)%nat ->
    dis_sim_local xsum argpart (rmat n m x) (Z.of_nat k) nj None res ->
    let N i := d_nn argpart (fun t => (t =? i)%nat) (fun t => sqdistR m (x i) (x t)) n k in
    exists L, res = Ok L /\ nrow L = n /\ ncol L = n /\
      (forall i, (i < n)%nat -> at2 L i i = XNInf) /\
      (forall i j, (i < n)%nat -> (j < n)%nat -> i <> j ->
         at2 L i j = XFin (sqdistR m (x i) (x j) - cent_sq m (x i) x (N i) - cent_sq m (x j) x (N j))).
  Proof.
    intros Hm Hk H N.
    destruct (euclid_fin (rmat n m x) (rmat n m x) x x (rmat_finite n m x) (rmat_finite n m x)) as (D & ED & RD & CD & FD); try (cbn; lia).
    cbn [rmat nrow ncol] in RD, CD, FD.
    inversion_clear H as [| Y0 e Hm0 Hbad | D0 c ED0 Hc |].
    - unfold bind in Hbad. rewrite ED in Hbad. discriminate.
    - rewrite ED in ED0. injection ED0 as <-.
      destruct (dsl_centroids_fin (fill_diagonal D ninf) (rmat n m x) (fun i t => (t =? i)%nat) (fun i t => sqdistR m (x i) (x t)) x n k nj c) as (cc & -> & Hcc); auto using rmat_finite.
      + intros i Hi. cbn [fill_diagonal nrow] in Hi. rewrite RD in Hi. rewrite filter_neq_len by assumption. lia.
      + intros i t Hi Ht. cbn [fill_diagonal nrow at2] in Hi |- *. rewrite (Nat.eqb_sym i t). destruct (t =? i)%nat; [reflexivity|]. apply FD; lia.
      + cbn [bind]. eexists. split; [reflexivity|]. cbn [fill_diagonal nrow ncol at2]. split; [exact RD|]. split; [exact CD|]. split.
        * intros i Hi. rewrite Nat.eqb_refl. reflexivity.
        * intros i j Hi Hj Hne. apply Nat.eqb_neq in Hne. rewrite Hne. rewrite FD by lia.
          rewrite (dsl_sq_fin (rmat n m x) x cc (centroidR x (N i)) i (rmat_finite n m x) Hi).
          2:{ intros f Hf. apply Hcc; [cbn; lia|exact Hf]. }
          rewrite (dsl_sq_fin (rmat n m x) x cc (centroidR x (N j)) j (rmat_finite n m x) Hj).
          2:{ intros f Hf. apply Hcc; [cbn; lia|exact Hf]. }
          reflexivity.
  Qed.

  Lemma dsl_two_explicit (n ny m : nat) x y k nj res : (0 < n)%nat -> (0 < m)%nat -> (0 < k < ny)%nat ->
    dis_sim_local xsum argpart (rmat n m x) (Z.of_nat k) nj (Some (rmat ny m y)) res ->
    let N p := d_nn argpart (fun _ => false) (fun t => sqdistR m p (y t)) ny k in
    exists L, res = Ok L /\ nrow L = n /\ ncol L = ny /\
      (forall i j, (i < n)%nat -> (j < ny)%nat ->
         at2 L i j = XFin (sqdistR m (x i) (y j) - cent_sq m (x i) y (N (x i)) - cent_sq m (y j) y (N (y j)))).
  Proof.
    intros Hn Hm Hk H N.
    destruct (euclid_fin (rmat ny m y) (rmat ny m y) y y (rmat_finite ny m y) (rmat_finite ny m y)) as (D1 & E1 & R1 & C1 & F1); try (cbn; lia).
    destruct (euclid_fin (rmat n m x) (rmat ny m y) x y (rmat_finite n m x) (rmat_finite ny m y)) as (D2 & E2 & R2 & C2 & F2); try (cbn; lia).
    cbn [rmat nrow ncol] in R1, C1, F1, R2, C2, F2.
    assert (Hcnt : (k <= length (filter (fun _ : nat => negb false) (seq 0 ny)))%nat).
    { replace (filter _ _) with (seq 0 ny); [rewrite seq_length; lia|]. clear. induction (seq 0 ny) as [|a l IH]; [reflexivity|]. cbn. now f_equal. }
    inversion_clear H as [Y0 Hd | Y0 e Hm0 Hbad | | Y0 Dtr Dte cx cy Hd Etr Ete Hcx Hcy].
    - cbn in Hd. congruence.
    - unfold bind in Hbad. rewrite E1, E2 in Hbad. discriminate.
    - rewrite E1 in Etr. injection Etr as <-. rewrite E2 in Ete. injection Ete as <-.
      destruct (dsl_centroids_fin D2 (rmat ny m y) (fun _ _ => false) (fun i t => sqdistR m (x i) (y t)) y ny k nj cx) as (cc & -> & Hcc); auto using rmat_finite.
      { intros i t Hi Ht. apply F2; lia. }
      destruct (dsl_centroids_fin D1 (rmat ny m y) (fun _ _ => false) (fun i t => sqdistR m (y i) (y t)) y ny k nj cy) as (cd & -> & Hcd); auto using rmat_finite.
      { intros i t Hi Ht. apply F1; lia. }
      cbn [bind]. eexists. split; [reflexivity|]. cbn [nrow ncol at2]. split; [exact R2|]. split; [exact C2|].
      intros i j Hi Hj. rewrite F2 by lia.
      rewrite (dsl_sq_fin (rmat n m x) x cc (centroidR y (N (x i))) i (rmat_finite n m x) Hi).
      2:{ intros f Hf. apply Hcc; [lia|exact Hf]. }
      rewrite (dsl_sq_fin (rmat ny m y) y cd (centroidR y (N (y j))) j (rmat_finite ny m y) Hj).
      2:{ intros f Hf. apply Hcd; [lia|exact Hf]. }
      reflexivity.
  Qed.
End DSL2.
