(** Final theorems: local DisSim and Minkowski distances.  Exact arithmetic,
    except for schedule independence, which holds in float64. *)
From Coq Require Import String.
From Coq Require Import ZArith Reals Lra Lia Psatz List Arith Bool Permutation.
From Verif Require Import Py Num NumT NumPow Arr Sort Conc S_LS S_Centering M_IO M_Hubness M_SNN M_LS M_Dist M_Centering P_SNN P_Vec P_Centering P_LCent P_DSL.
Import ListNotations.
Local Open Scope R_scope.

(** ** C56: all-against-all.  Every point has a list of k nearest other points;
    the squared distance is reduced by the squared distances of both points to
    the centroids of their lists; the diagonal is -inf *)
Theorem C56_dis_sim_local :
  forall argpart n m x k n_jobs res, argpart_ok argpart -> (0 < m)%nat -> (0 < k < n)%nat ->
    dis_sim_local xsum argpart (rmat n m x) (Z.of_nat k) n_jobs None res ->
    exists L (N : nat -> list nat), res = Ok L /\ nrow L = n /\ ncol L = n /\
      (forall i, (i < n)%nat -> top_k Rle (fun t => sqdistR m (x i) (x t)) (filter (fun t => negb (t =? i)%nat) (seq 0 n)) k (N i)) /\
      (forall i, (i < n)%nat -> at2 L i i = XNInf) /\
      (forall i j, (i < n)%nat -> (j < n)%nat -> i <> j ->
         at2 L i j = XFin (sqdistR m (x i) (x j) - sqdistR m (x i) (centroidR x (N i)) - sqdistR m (x j) (centroidR x (N j)))).
Proof.
  intros argpart n m x k nj res AP Hm Hk H.
  destruct (dsl_self_explicit argpart AP n m x k nj res Hm Hk H) as (L & -> & R1 & R2 & Hd & Hv).
  exists L, (fun i => d_nn argpart (fun t => (t =? i)%nat) (fun t => sqdistR m (x i) (x t)) n k).
  split; [reflexivity|]. split; [assumption|]. split; [assumption|]. split; [|split; assumption].
  intros i Hi. apply d_nn_top; [assumption|lia|]. rewrite filter_neq_len by assumption. lia.
Qed.

(** with separate training points [y]: lists are drawn from all of [y] *)
Theorem C56_dis_sim_local_two :
  forall argpart n ny m x y k n_jobs res, argpart_ok argpart -> (0 < n)%nat -> (0 < m)%nat -> (0 < k < ny)%nat ->
    dis_sim_local xsum argpart (rmat n m x) (Z.of_nat k) n_jobs (Some (rmat ny m y)) res ->
    exists L (NX NY : nat -> list nat), res = Ok L /\ nrow L = n /\ ncol L = ny /\
      (forall i, (i < n)%nat -> top_k Rle (fun t => sqdistR m (x i) (y t)) (seq 0 ny) k (NX i)) /\
      (forall j, (j < ny)%nat -> top_k Rle (fun t => sqdistR m (y j) (y t)) (seq 0 ny) k (NY j)) /\
      (forall i j, (i < n)%nat -> (j < ny)%nat ->
         at2 L i j = XFin (sqdistR m (x i) (y j) - sqdistR m (x i) (centroidR y (NX i)) - sqdistR m (y j) (centroidR y (NY j)))).
Proof.
  intros argpart n ny m x y k nj res AP Hn Hm Hk H.
  destruct (dsl_two_explicit argpart AP n ny m x y k nj res Hn Hm Hk H) as (L & -> & R1 & R2 & Hv).
  set (N := fun p => d_nn argpart (fun _ => false) (fun t => sqdistR m p (y t)) ny k).
  assert (FE : filter (fun _ : nat => negb false) (seq 0 ny) = seq 0 ny) by (induction (seq 0 ny) as [|a l IH]; [reflexivity|]; cbn; now f_equal).
  assert (T : forall p, top_k Rle (fun t => sqdistR m p (y t)) (seq 0 ny) k (N p)).
  { intros p. pose proof (d_nn_top argpart AP (fun _ => false) (fun t => sqdistR m p (y t)) ny k) as Q. cbn beta in Q. rewrite FE in Q.
    apply Q; [lia|rewrite seq_length; lia]. }
  exists L, (fun i => N (x i)), (fun j => N (y j)). split; [reflexivity|]. split; [assumption|]. split; [assumption|].
  split; [intros; apply T|]. split; [intros; apply T|]. exact Hv.
Qed.

(** moving all points by the same vector changes nothing *)
Lemma sqdistR_shift m u v t : sqdistR m (fun f => u f + t f) (fun f => v f + t f) = sqdistR m u v.
Proof. apply rsum_ext. intros. ring. Qed.

Theorem C56_translation_invariant :
  forall argpart n m x (t : nat -> R) k n_jobs n_jobs' res res', argpart_ok argpart -> (0 < m)%nat -> (0 < k < n)%nat ->
    dis_sim_local xsum argpart (rmat n m x) (Z.of_nat k) n_jobs None res ->
    dis_sim_local xsum argpart (rmat n m (fun i f => x i f + t f)) (Z.of_nat k) n_jobs' None res' ->
    exists L L', res = Ok L /\ res' = Ok L' /\ eq2 L L'.
Proof.
  intros argpart n m x t k nj nj' res res' AP Hm Hk H H'.
  destruct (dsl_self_explicit argpart AP n m x k nj res Hm Hk H) as (L & -> & R1 & C1 & Hd & Hv).
  destruct (dsl_self_explicit argpart AP n m _ k nj' res' Hm Hk H') as (L' & -> & R2 & C2 & Hd' & Hv').
  exists L, L'. split; [reflexivity|]. split; [reflexivity|]. split; [congruence|]. split; [congruence|].
  intros i j Hi Hj. rewrite R1 in Hi. rewrite C1 in Hj. destruct (Nat.eq_dec i j) as [<- | Hne]; [now rewrite Hd, Hd'|].
  rewrite Hv, Hv' by assumption. f_equal. rewrite sqdistR_shift.
  assert (EN : forall i, d_nn argpart (fun s => (s =? i)%nat) (fun s => sqdistR m (fun f => x i f + t f) (fun f => x s f + t f)) n k
     = d_nn argpart (fun s => (s =? i)%nat) (fun s => sqdistR m (x i) (x s)) n k).
  { intros a. unfold d_nn. f_equal. f_equal. unfold masked. apply map_ext. intros s. now rewrite sqdistR_shift. }
  assert (EC : forall i, (i < n)%nat -> cent_sq m (fun f => x i f + t f) (fun i f => x i f + t f)
       (d_nn argpart (fun s => (s =? i)%nat) (fun s => sqdistR m (x i) (x s)) n k)
     = cent_sq m (x i) x (d_nn argpart (fun s => (s =? i)%nat) (fun s => sqdistR m (x i) (x s)) n k)).
  { intros a Ha. destruct (d_nn_top argpart AP (fun s => (s =? a)%nat) (fun s => sqdistR m (x a) (x s)) n k) as (Ln & _).
    - lia.
    - rewrite filter_neq_len by assumption. lia.
    - set (l := d_nn _ _ _ _ _) in *. unfold cent_sq. apply rsum_ext. intros f _. rewrite centroidR_shift; [ring|]. intros Z. rewrite Z in Ln. cbn in Ln. lia. }
  cbv beta in |- *. rewrite (EN i), (EN j), (EC i Hi), (EC j Hj). reflexivity.
Qed.

(** k must be smaller than the number of training points *)
Theorem C56_k_too_large :
  forall argpart n m x k n_jobs res, (0 < n)%nat -> (0 < m)%nat -> (n <= k)%nat ->
    dis_sim_local xsum argpart (rmat n m x) (Z.of_nat k) n_jobs None res -> res = Raise ValueError.
Proof.
  intros argpart n m x k nj res Hn Hm Hk H.
  destruct (euclid_fin (rmat n m x) (rmat n m x) x x (rmat_finite n m x) (rmat_finite n m x)) as (D & ED & RD & CD & FD); try (cbn; lia).
  cbn [rmat nrow ncol] in RD, CD.
  inversion_clear H as [| Y0 e Hm0 Hbad | D0 c ED0 Hc |].
  - unfold bind in Hbad. rewrite ED in Hbad. discriminate.
  - rewrite ED in ED0. injection ED0 as <-. apply dsl_centroids_out in Hc. cbn [fill_diagonal nrow] in Hc. rewrite RD in Hc.
    destruct n as [|n']; [lia|]. cbn [seq mapM] in Hc. unfold dsl_nn at 1, np_argpartition in Hc.
    replace (kth_legal _ _) with false in Hc; [now rewrite Hc|].
    symmetry. unfold rowl. rewrite map_length, seq_length. cbn [fill_diagonal ncol]. rewrite CD. unfold kth_legal. cbn [forallb]. rewrite andb_true_r.
    apply andb_false_iff. right. apply Z.ltb_ge. lia.
Qed.

(** any number of workers and any schedule give the same matrix (float64) *)
Theorem C56_some_outcome :
  forall (vsum : list f64 -> f64) argpart X Y k n_jobs, exists res, dis_sim_local vsum argpart X k n_jobs Y res.
Proof.
  intros vsum argpart X Y k nj. destruct Y as [Y|].
  - destruct (Nat.eq_dec (ncol X) (ncol Y)) as [E|E].
    + destruct (euclidean_distances_sq vsum Y Y) as [D1|e] eqn:E1.
      2:{ exists (Raise e). apply dsl_bad; [assumption|]. cbn. now rewrite E1. }
      destruct (euclidean_distances_sq vsum X Y) as [D2|e] eqn:E2.
      2:{ exists (Raise e). apply dsl_bad; [assumption|]. cbn. rewrite E1. now rewrite E2. }
      destruct (dsl_centroids_exists vsum argpart D2 Y k nj) as (c & Hc). destruct (dsl_centroids_exists vsum argpart D1 Y k nj) as (d & Hd).
      eexists. eapply dsl_two; eauto.
    + eexists. now apply dsl_dim.
  - destruct (euclidean_distances_sq vsum X X) as [D|e] eqn:E1.
    + destruct (dsl_centroids_exists vsum argpart (fill_diagonal D ninf) X k nj) as (c & Hc). eexists. eapply dsl_self; eauto.
    + exists (Raise e). apply dsl_bad; [exact I|]. cbn. now rewrite E1.
Qed.

Theorem C56_schedule_independent :
  forall (vsum : list f64 -> f64) argpart X Y k n_jobs n_jobs' res res',
    dis_sim_local vsum argpart X k n_jobs Y res -> dis_sim_local vsum argpart X k n_jobs' Y res' ->
    match res, res' with Ok L, Ok L' => eq2 L L' | Raise e, Raise e' => e = e' | _, _ => False end.
Proof.
  intros vsum argpart X Y k nj nj' res res' H H'.
  assert (Sq : forall (Z : arr2 f64) c c' n, (forall i f, (i < n)%nat -> (f < ncol Z)%nat -> c i f = c' i f) ->
      forall i, (i < n)%nat -> dsl_sq vsum Z c i = dsl_sq vsum Z c' i).
  { intros Z c c' n Hc i Hi. unfold dsl_sq. f_equal. apply map_ext_in. intros f Hf. apply in_seq in Hf. rewrite Hc by lia. reflexivity. }
  assert (Cs : forall D Z nj nj' c c', dsl_centroids vsum argpart D Z k nj c -> dsl_centroids vsum argpart D Z k nj' c' ->
      match c, c' with Ok a, Ok b => forall i f, (i < nrow D)%nat -> (f < ncol Z)%nat -> a i f = b i f | Raise e, Raise e' => e = e' | _, _ => False end).
  { intros D Z a a' c c' Hc Hc'. apply dsl_centroids_out in Hc. apply dsl_centroids_out in Hc'. destruct (mapM _ _).
    - destruct Hc as (p & -> & Hp), Hc' as (q & -> & Hq). intros i f Hi Hf. now rewrite Hp, Hq.
    - subst. reflexivity. }
  assert (Dims : forall (A B D : arr2 f64), euclidean_distances_sq vsum A B = Ok D -> nrow D = nrow A /\ ncol D = nrow B).
  { intros A B D. unfold euclidean_distances_sq. destruct (check_array A); cbn [bind]; [|discriminate]. destruct (check_array B); cbn [bind]; [|discriminate].
    destruct (ncol A =? ncol B)%nat; cbn [negb guard bind]; [|discriminate]. intros E. now injection E as <-. }
  destruct Y as [Y|].
  - inversion_clear H as [Y0 Hd | Y0 e Hm0 Hbad | | Y0 D1 D2 cx cy Hd E1 E2 Hcx Hcy];
    inversion_clear H' as [Y0 Hd' | Y0 e' Hm0' Hbad' | | Y0 D1' D2' cx' cy' Hd' E1' E2' Hcx' Hcy']; try congruence; try reflexivity.
    + cbn in Hbad. rewrite E1', E2' in Hbad. discriminate.
    + cbn in Hbad'. rewrite E1, E2 in Hbad'. discriminate.
    + rewrite E1 in E1'. injection E1' as <-. rewrite E2 in E2'. injection E2' as <-.
      pose proof (Cs _ _ _ _ _ _ Hcx Hcx') as Qx. pose proof (Cs _ _ _ _ _ _ Hcy Hcy') as Qy.
      destruct (Dims _ _ _ E1) as (A1 & A2). destruct (Dims _ _ _ E2) as (B1 & B2).
      destruct cx as [cx|ex], cx' as [cx'|ex']; try contradiction; cbn [bind]; [|assumption].
      destruct cy as [cy|ey], cy' as [cy'|ey']; try contradiction; cbn [bind]; [|assumption].
      split; [reflexivity|]. split; [reflexivity|]. intros i j Hi Hj. cbn [nrow ncol at2] in *.
      rewrite (Sq X cx cx' (nrow D2)) by (try assumption; intros; apply Qx; congruence).
      rewrite (Sq Y cy cy' (nrow D1)) by (try assumption; try congruence; lia). reflexivity.
  - inversion_clear H as [| Y0 e Hm0 Hbad | D c E1 Hc |]; inversion_clear H' as [| Y0 e' Hm0' Hbad' | D' c' E1' Hc' |].
    + rewrite Hbad in Hbad'. now injection Hbad'.
    + cbn in Hbad. rewrite E1' in Hbad. discriminate.
    + cbn in Hbad'. rewrite E1 in Hbad'. discriminate.
    + rewrite E1 in E1'. injection E1' as <-. pose proof (Cs _ _ _ _ _ _ Hc Hc') as Q. destruct (Dims _ _ _ E1) as (A1 & A2).
      destruct c as [c|e], c' as [c'|e']; try contradiction; cbn [bind]; [|assumption].
      split; [reflexivity|]. split; [reflexivity|]. intros i j Hi Hj. cbn [fill_diagonal nrow ncol at2] in *.
      destruct (i =? j)%nat; [reflexivity|].
      rewrite (Sq X c c' (nrow D) Q i Hi), (Sq X c c' (nrow D) Q j) by lia. reflexivity.
Qed.

(** ** C59: passing the data as [Y] makes every training point its own
    neighbour.  With pairwise different points each list contains the point
    itself, and for k = 1 the correction of the training points vanishes: the
    result of dis_sim_local(X, X, k=1) is the plain squared distance *)
Lemma self_in_top m y ny k j l : (0 < k)%nat -> (j < ny)%nat ->
  (forall i, (i < ny)%nat -> i <> j -> 0 < sqdistR m (y j) (y i)) ->
  top_k Rle (fun t => sqdistR m (y j) (y t)) (seq 0 ny) k l -> In j l.
Proof.
  intros Hk Hj Hd (Ln & ND & Hin & Hle). destruct (in_dec Nat.eq_dec j l) as [|Hn]; [assumption|]. exfalso.
  destruct l as [|a l]; [cbn in Ln; lia|].
  assert (Z : sqdistR m (y j) (y j) = 0) by (unfold sqdistR; rewrite (rsum_ext _ (fun _ => 0)) by (intros; ring); apply rsum_0).
  pose proof (Hle a j (or_introl eq_refl) ltac:(apply in_seq; lia) Hn) as Q. cbn beta in Q. rewrite Z in Q.
  assert (Ha : (a < ny)%nat) by (specialize (Hin a (or_introl eq_refl)); apply in_seq in Hin; lia).
  assert (a <> j) by (intros ->; apply Hn; now left). pose proof (Hd a Ha H). lra.
Qed.

Theorem C59_training_points_are_own_neighbours :
  forall argpart n ny m x y k n_jobs res, argpart_ok argpart -> (0 < n)%nat -> (0 < m)%nat -> (0 < k < ny)%nat ->
    (forall i j, (i < ny)%nat -> (j < ny)%nat -> i <> j -> exists f, (f < m)%nat /\ y i f <> y j f) ->
    dis_sim_local xsum argpart (rmat n m x) (Z.of_nat k) n_jobs (Some (rmat ny m y)) res ->
    exists L (NX NY : nat -> list nat), res = Ok L /\
      (forall j, (j < ny)%nat -> In j (NY j) /\ top_k Rle (fun t => sqdistR m (y j) (y t)) (seq 0 ny) k (NY j)) /\
      (forall i j, (i < n)%nat -> (j < ny)%nat ->
         at2 L i j = XFin (sqdistR m (x i) (y j) - sqdistR m (x i) (centroidR y (NX i)) - sqdistR m (y j) (centroidR y (NY j)))).
Proof.
  intros argpart n ny m x y k nj res AP Hn Hm Hk Hd H.
  destruct (C56_dis_sim_local_two argpart n ny m x y k nj res AP Hn Hm Hk H) as (L & NX & NY & -> & R1 & C1 & HX & HY & Hv).
  exists L, NX, NY. split; [reflexivity|]. split; [|exact Hv]. intros j Hj. split; [|now apply HY].
  apply (self_in_top m y ny k j); [lia|assumption| |now apply HY]. intros i Hi Hne.
  destruct (Hd j i Hj Hi ltac:(congruence)) as (f & Hf & Hdf).
  destruct (Req_dec (sqdistR m (y j) (y i)) 0) as [Z|Z]; [|pose proof (dotR_pos m (vminus (y j) (y i))) as P; rewrite <- sqdistR_dot in P; lra].
  exfalso. apply Hdf. pose proof (dotR_zero m (vminus (y j) (y i)) Z f Hf) as Q. unfold vminus in Q. lra.
Qed.

Theorem C59_k1_returns_plain_distances :
  forall argpart n m x n_jobs res, argpart_ok argpart -> (0 < m)%nat -> (1 < n)%nat ->
    (forall i j, (i < n)%nat -> (j < n)%nat -> i <> j -> exists f, (f < m)%nat /\ x i f <> x j f) ->
    dis_sim_local xsum argpart (rmat n m x) 1 n_jobs (Some (rmat n m x)) res ->
    exists L, res = Ok L /\ eq2 L (rmat n n (fun i j => sqdistR m (x i) (x j))).
Proof.
  intros argpart n m x nj res AP Hm Hn Hd H.
  destruct (C56_dis_sim_local_two argpart n n m x x 1 nj res AP ltac:(lia) Hm ltac:(lia) H) as (L & NX & NY & -> & R1 & C1 & HX & HY & Hv).
  exists L. split; [reflexivity|]. split; [exact R1|]. split; [exact C1|]. intros i j Hi Hj. rewrite R1 in Hi. rewrite C1 in Hj. rewrite Hv by assumption. cbn [rmat at2]. f_equal.
  assert (S1 : forall a l, (a < n)%nat -> top_k Rle (fun t => sqdistR m (x a) (x t)) (seq 0 n) 1 l -> sqdistR m (x a) (centroidR x l) = 0).
  { intros a l Ha T. assert (I : In a l).
    { apply (self_in_top m x n 1 a); [lia|assumption| |assumption]. intros b Hb Hne.
      destruct (Hd a b Ha Hb ltac:(congruence)) as (f & Hf & Hdf).
      destruct (Req_dec (sqdistR m (x a) (x b)) 0) as [Z|Z]; [|pose proof (dotR_pos m (vminus (x a) (x b))) as P; rewrite <- sqdistR_dot in P; lra].
      exfalso. apply Hdf. pose proof (dotR_zero m (vminus (x a) (x b)) Z f Hf) as Q. unfold vminus in Q. lra. }
    destruct T as (Ln & _). destruct l as [|b [|c l]]; try discriminate. destruct I as [->|[]].
    unfold sqdistR. rewrite (rsum_ext _ (fun _ => 0)); [apply rsum_0|]. intros f _. unfold centroidR. cbn. field. }
  rewrite (S1 i (NX i) Hi (HX i Hi)), (S1 j (NY j) Hj (HY j Hj)). ring.
Qed.

(* ------------------------------------------------------------------ *)
(** ** C57: lp_norm is the Minkowski distance for every p > 0; the special
    cases p = 1 and p = 2 agree with the general formula *)
Definition minkR (p : R) (m : nat) (u v : nat -> R) : R :=
  powR (rsum (map (fun f => powR (Rabs (u f - v f)) p) (seq 0 m))) (1 / p).

Lemma powR_1 a : 0 <= a -> powR a 1 = a.
Proof. intros H. unfold powR. destruct (Req_EM_T 1 0); [lra|]. destruct (Req_EM_T a 0); [lra|]. apply Rpower_1. lra. Qed.
Lemma powR_2 a : 0 <= a -> powR a 2 = a * a.
Proof.
  intros H. unfold powR. destruct (Req_EM_T 2 0); [lra|]. destruct (Req_EM_T a 0) as [->|]; [ring|].
  replace 2 with (1 + 1) by ring. rewrite Rpower_plus, !Rpower_1 by lra. reflexivity.
Qed.
Lemma powR_half a : 0 <= a -> powR a (1 / 2) = sqrt a.
Proof.
  intros H. unfold powR. destruct (Req_EM_T (1 / 2) 0); [lra|]. destruct (Req_EM_T a 0) as [->|]; [now rewrite sqrt_0|].
  replace (1 / 2) with (/ 2) by lra. apply Rpower_sqrt. lra.
Qed.
Lemma powR_nonneg a g : 0 <= powR a g.
Proof. unfold powR. destruct (Req_EM_T g 0); [lra|]. destruct (Req_EM_T a 0); [lra|]. left. apply exp_pos. Qed.

Theorem C57_lp_norm :
  forall n m x Y ny y p, (match Y with None => ny = n /\ y = x | Some A => A = rmat ny m y end) ->
    (0 < n)%nat -> (0 < ny)%nat -> (0 < m)%nat -> 0 < p ->
    exists D, lp_norm xsum xpow (rmat n m x) Y (Some (XFin p)) = Ok D /\
      eq2 D (rmat n ny (fun i j => minkR p m (x i) (y j))).
Proof.
  intros n m x Y ny y p HY Hn Hny Hm Hp.
  assert (EY : match Y with None => rmat n m x | Some Y => Y end = rmat ny m y) by (destruct Y; [assumption|destruct HY as [-> ->]; reflexivity]).
  assert (Pw : forall (d : nat -> (nat -> xr) -> (nat -> xr) -> xr) dR, (forall u v u' v', (forall f, (f < m)%nat -> u f = XFin (u' f)) -> (forall f, (f < m)%nat -> v f = XFin (v' f)) -> d m u v = XFin (dR u' v')) ->
      exists D, pairwise d (rmat n m x) (rmat ny m y) = Ok D /\ eq2 D (rmat n ny (fun i j => dR (x i) (y j)))).
  { intros d dR Hd. unfold pairwise. rewrite (check_array_ok (rmat n m x) x (rmat_finite n m x)) by (cbn; lia).
    rewrite (check_array_ok (rmat ny m y) y (rmat_finite ny m y)) by (cbn; lia). cbn [bind ncol rmat]. rewrite Nat.eqb_refl. cbn [negb guard bind].
    eexists. split; [reflexivity|]. split; [reflexivity|]. split; [reflexivity|]. intros i j Hi Hj. cbn [at2]. apply Hd; reflexivity. }
  assert (Ab : forall a b, vabs (nsub (XFin a) (XFin b)) = XFin (Rabs (a - b))).
  { intros a b. unfold vabs. cbn. unfold Rabs, Rminus. destruct (Rlt_dec (a + - b) 0), (Rcase_abs (a + - b)); try lra; reflexivity. }
  unfold lp_norm. rewrite EY. replace (neq (XFin p) n1) with (if Req_EM_T p 1 then true else false) by reflexivity.
  replace (neq (XFin p) (nofZ 2)) with (if Req_EM_T p 2 then true else false) by reflexivity.
  destruct (Req_EM_T p 1) as [->|N1].
  - apply (Pw (l1_dist xsum) (minkR 1 m)). intros u v u' v' Hu Hv. unfold l1_dist.
    rewrite (xs_fin _ (fun f => Rabs (u' f - v' f))) by (intros f Hf; apply in_seq in Hf; rewrite Hu, Hv by lia; apply Ab).
    f_equal. unfold minkR. replace (1 / 1) with 1 by lra.
    rewrite (rsum_ext (fun f => powR (Rabs (u' f - v' f)) 1) (fun f => Rabs (u' f - v' f))) by (intros; apply powR_1, Rabs_pos).
    rewrite powR_1; [reflexivity|]. apply rsum_nonneg. intros a Ha. apply in_map_iff in Ha. destruct Ha as (f & <- & _). apply Rabs_pos.
  - destruct (Req_EM_T p 2) as [->|N2].
    + apply (Pw (l2_dist xsum) (minkR 2 m)). intros u v u' v' Hu Hv. unfold l2_dist. rewrite (sqdist_fin m u v u' v' Hu Hv).
      assert (P : 0 <= sqdistR m u' v') by (rewrite sqdistR_dot; apply dotR_pos).
      cbn. destruct (Rlt_dec (sqdistR m u' v') 0); [lra|]. f_equal. unfold minkR.
      rewrite (rsum_ext (fun f => powR (Rabs (u' f - v' f)) 2) (fun f => (u' f - v' f) * (u' f - v' f))).
      * rewrite powR_half; [reflexivity|exact P].
      * intros f _. rewrite powR_2 by apply Rabs_pos. rewrite <- Rabs_mult. apply Rabs_pos_eq. apply Rle_0_sqr.
    + apply (Pw (minkowski_dist xsum xpow (XFin p)) (minkR p m)). intros u v u' v' Hu Hv. unfold minkowski_dist, minkR.
      assert (Xp : forall a g, 0 <= a -> 0 < g -> xpow (XFin a) (XFin g) = XFin (powR a g)).
      { intros a g Ha Hg. unfold xpow, powR. destruct (Req_EM_T g 0); [lra|]. destruct (Rlt_dec a 0); [lra|].
        destruct (Req_EM_T a 0); [|reflexivity]. destruct (Rlt_dec g 0); [lra|reflexivity]. }
      rewrite (xs_fin _ (fun f => powR (Rabs (u' f - v' f)) p)).
      2:{ intros f Hf. apply in_seq in Hf. rewrite Hu, Hv by lia. rewrite Ab. apply Xp; [apply Rabs_pos|assumption]. }
      change (ndiv n1 (XFin p)) with (xdiv (XFin 1) (XFin p)). rewrite xdiv_fin by lra. apply Xp.
      * apply rsum_nonneg. intros a Ha. apply in_map_iff in Ha. destruct Ha as (f & <- & _). apply powR_nonneg.
      * apply Rmult_lt_0_compat; [lra|]. now apply Rinv_0_lt_compat.
Qed.

(** all-against-all: symmetric, zero on the diagonal, non-negative, unchanged by
    translation and multiplied by |a| when all data are multiplied by a *)
Lemma powR_mult a b g : 0 <= a -> 0 <= b -> powR (a * b) g = powR a g * powR b g.
Proof.
  intros Ha Hb. unfold powR. destruct (Req_EM_T g 0); [ring|].
  destruct (Req_EM_T a 0) as [->|], (Req_EM_T b 0) as [->|]; rewrite ?Rmult_0_l, ?Rmult_0_r;
    try (destruct (Req_EM_T 0 0); [ring|contradiction]).
  destruct (Req_EM_T (a * b) 0) as [Z|_]; [apply Rmult_integral in Z; lra|]. symmetry. apply Rpower_mult_distr; lra.
Qed.
Lemma powR_powR a g h : 0 <= a -> g * h = 1 -> powR (powR a g) h = a.
Proof.
  intros Ha E. unfold powR at 2. destruct (Req_EM_T g 0) as [->|]; [lra|]. destruct (Req_EM_T a 0) as [->|].
  - unfold powR. destruct (Req_EM_T h 0) as [->|]; [lra|]. destruct (Req_EM_T 0 0); [reflexivity|contradiction].
  - unfold powR. destruct (Req_EM_T h 0) as [->|]; [lra|].
    destruct (Req_EM_T (Rpower a g) 0) as [Z|_]; [unfold Rpower in Z; pose proof (exp_pos (g * ln a)); lra|].
    rewrite Rpower_mult, E. apply Rpower_1. lra.
Qed.

Theorem C57_dissimilarity :
  forall n m x p D, (0 < n)%nat -> (0 < m)%nat -> 0 < p ->
    lp_norm xsum xpow (rmat n m x) None (Some (XFin p)) = Ok D ->
    nrow D = n /\ ncol D = n /\
    (forall i, (i < n)%nat -> at2 D i i = XFin 0) /\
    (forall i j, (i < n)%nat -> (j < n)%nat -> at2 D i j = at2 D j i /\ exists d, at2 D i j = XFin d /\ 0 <= d) /\
    (forall t D', lp_norm xsum xpow (rmat n m (fun i f => x i f + t f)) None (Some (XFin p)) = Ok D' -> eq2 D' D) /\
    (forall a D', lp_norm xsum xpow (rmat n m (fun i f => a * x i f)) None (Some (XFin p)) = Ok D' ->
       forall i j, (i < n)%nat -> (j < n)%nat -> at2 D' i j = xmul (XFin (Rabs a)) (at2 D i j)).
Proof.
  intros n m x p D Hn Hm Hp E.
  assert (Fm : forall z D, lp_norm xsum xpow (rmat n m z) None (Some (XFin p)) = Ok D -> eq2 D (rmat n n (fun i j => minkR p m (z i) (z j)))).
  { intros z D0 E0. destruct (C57_lp_norm n m z None n z p (conj eq_refl eq_refl) Hn Hn Hm Hp) as (D1 & E1 & Q). rewrite E1 in E0. now injection E0 as <-. }
  destruct (Fm x D E) as (R1 & C1 & F). cbn [rmat nrow ncol] in R1, C1.
  assert (Pz : forall g, 0 < g -> powR 0 g = 0) by (intros g Hg; unfold powR; destruct (Req_EM_T g 0); [lra|]; destruct (Req_EM_T 0 0); [reflexivity|contradiction]).
  assert (Pp : 0 < 1 / p) by (apply Rmult_lt_0_compat; [lra|]; now apply Rinv_0_lt_compat).
  split; [assumption|]. split; [assumption|]. split; [|split; [|split]].
  - intros i Hi. rewrite F by lia. cbn [rmat at2]. f_equal. unfold minkR.
    rewrite (rsum_ext _ (fun _ => 0)); [rewrite rsum_0; now apply Pz|]. intros f _. rewrite Rminus_diag_eq, Rabs_R0 by reflexivity. now apply Pz.
  - intros i j Hi Hj. rewrite !F by lia. cbn [rmat at2]. split.
    + unfold minkR. do 2 f_equal. apply rsum_ext. intros f _. f_equal. apply Rabs_minus_sym.
    + eexists. split; [reflexivity|]. apply powR_nonneg.
  - intros t D' E'. destruct (Fm _ D' E') as (R2 & C2 & F'). cbn [rmat nrow ncol] in R2, C2. split; [congruence|]. split; [congruence|].
    intros i j Hi Hj. rewrite F' by assumption. rewrite F by congruence. cbn [rmat at2]. unfold minkR. do 2 f_equal. apply rsum_ext. intros f _. do 2 f_equal. ring.
  - intros a D' E' i j Hi Hj. destruct (Fm _ D' E') as (R2 & C2 & F'). cbn [rmat nrow ncol] in R2, C2. rewrite F', F by lia. cbn [rmat at2 xmul]. f_equal.
    unfold minkR.
    rewrite (rsum_ext _ (fun f => powR (Rabs a) p * powR (Rabs (x i f - x j f)) p)).
    + rewrite rsum_mult, powR_mult.
      * rewrite powR_powR; [reflexivity|apply Rabs_pos|field; lra].
      * apply powR_nonneg.
      * apply rsum_nonneg. intros b Hb. apply in_map_iff in Hb. destruct Hb as (f & <- & _). apply powR_nonneg.
    + intros f _. rewrite <- powR_mult by apply Rabs_pos. f_equal. rewrite <- Rabs_mult. f_equal. ring.
Qed.

Theorem C57_p_required :
  forall (X : arr2 xr) Y, lp_norm xsum xpow X Y None = Raise ValueError.
Proof. reflexivity. Qed.

(* ------------------------------------------------------------------ *)
(** concrete cases: the points 0, 1, 3 on a line *)
Definition exD : nat -> nat -> R := fun i _ => match i with 0%nat => 0 | 1%nat => 1 | _ => 3 end.
Example C56_case : forall res, dis_sim_local xsum ref_argpart (rmat 3 1 exD) 1 1 None res ->
  exists L, res = Ok L /\ at2 L 0 1 = XFin (-1).
Proof.
  intros res H. assert (AP : argpart_ok (ref_argpart (V := xr))) by apply (ref_argpart_ok xr_cmp).
  destruct (C56_dis_sim_local ref_argpart 3 1 exD 1 1 res AP ltac:(lia) ltac:(lia) H) as (L & N & -> & _ & _ & HN & _ & Hv).
  exists L. split; [reflexivity|]. rewrite Hv by lia. f_equal.
  assert (N0 : N 0%nat = [1%nat]).
  { destruct (HN 0%nat ltac:(lia)) as (Ln & _ & Hin & Hle). destruct (N 0%nat) as [|a [|b l]]; try discriminate.
    assert (Ha : In a (filter (fun t => negb (t =? 0)%nat) (seq 0 3))) by (apply Hin; now left). cbn in Ha.
    destruct Ha as [<- | [<- | []]]; [reflexivity|]. exfalso.
    pose proof (Hle 2%nat 1%nat (or_introl eq_refl) ltac:(cbn; auto) ltac:(cbn; intuition lia)) as Q. unfold sqdistR in Q. cbn in Q. lra. }
  assert (N1 : N 1%nat = [0%nat]).
  { destruct (HN 1%nat ltac:(lia)) as (Ln & _ & Hin & Hle). destruct (N 1%nat) as [|a [|b l]]; try discriminate.
    assert (Ha : In a (filter (fun t => negb (t =? 1)%nat) (seq 0 3))) by (apply Hin; now left). cbn in Ha.
    destruct Ha as [<- | [<- | []]]; [reflexivity|]. exfalso.
    pose proof (Hle 2%nat 0%nat (or_introl eq_refl) ltac:(cbn; auto) ltac:(cbn; intuition lia)) as Q. unfold sqdistR in Q. cbn in Q. lra. }
  rewrite N0, N1. unfold sqdistR, centroidR. cbn. field.
Qed.
Example C59_case : (forall i j, (i < 3)%nat -> (j < 3)%nat -> i <> j -> exists f, (f < 1)%nat /\ exD i f <> exD j f) /\
  sqdistR 1 (exD 0) (exD 1) = 1.
Proof.
  split.
  - intros i j Hi Hj Hne. exists 0%nat. split; [lia|]. destruct i as [|[|[|i]]], j as [|[|[|j]]]; try lia; cbn; lra.
  - unfold sqdistR. cbn. ring.
Qed.

Print Assumptions C56_dis_sim_local.
Print Assumptions C56_dis_sim_local_two.
Print Assumptions C56_translation_invariant.
Print Assumptions C56_k_too_large.
Print Assumptions C56_some_outcome.
Print Assumptions C56_schedule_independent.
Print Assumptions C59_training_points_are_own_neighbours.
Print Assumptions C59_k1_returns_plain_distances.
Print Assumptions C57_lp_norm.
Print Assumptions C57_dissimilarity.
Print Assumptions C57_p_required.
