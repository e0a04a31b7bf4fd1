(** C135: local DisSim of integer vectors.  Exact arithmetic. *)
From Coq Require Import String.
From Coq Require Import ZArith Reals Lra Lia Psatz List Arith Bool Permutation.
From Flocq Require Import Core.Raux.
From Verif Require Import Py Num NumT NumPow Arr Sort Conc S_LS S_Centering M_IO M_Hubness M_SNN M_LS M_Dist M_Centering M_DSLInt P_SNN P_Vec P_Centering P_LCent P_DSL Properties_DSL.
Import ListNotations.
Local Open Scope R_scope.

(** a matrix of integers *)
Definition zmat (n m : nat) (x : nat -> nat -> Z) : arr2 Z := Arr2 n m x.
(** the centroid with all coordinates truncated towards zero *)
Definition truncated (x : nat -> nat -> R) (rows : list nat) (f : nat) : R := IZR (Ztrunc (centroidR x rows f)).

Lemma sq_int_fin m (X : arr2 Z) c c' i : ncol X = m -> (forall f, (f < m)%nat -> c i f = XFin (c' f)) ->
  @nofZ xr _ (dsl_sq_int xtrunc X c i) = XFin (sqdistR m (fun f => IZR (at2 X i f)) (fun f => IZR (Ztrunc (c' f)))).
Proof.
  intros E Hc. cbn [nofZ Num_xr]. f_equal. unfold dsl_sq_int, sqdistR. rewrite E. cbv zeta.
  assert (G : forall l, (forall f, In f l -> (f < m)%nat) ->
    IZR (fold_right Z.add 0%Z (map (fun f => ((at2 X i f - xtrunc (c i f)) * (at2 X i f - xtrunc (c i f)))%Z) l))
    = rsum (map (fun f => (IZR (at2 X i f) - IZR (Ztrunc (c' f))) * (IZR (at2 X i f) - IZR (Ztrunc (c' f)))) l)).
  { induction l as [|f l IH]; intros Hl; [reflexivity|]. cbn [map fold_right rsum]. rewrite plus_IZR, IH by (intros; apply Hl; now right).
    rewrite Hc by (apply Hl; now left). cbn [xtrunc]. rewrite mult_IZR, minus_IZR. reflexivity. }
  apply G. intros f Hf. apply in_seq in Hf. lia.
Qed.

Section C135.
  Variable argpart : list xr -> list nat -> list nat.
  Hypothesis AP : argpart_ok argpart.

  Lemma int_self n m (x : nat -> nat -> Z) k nj res : (0 < m)%nat -> (0 < k < n)%nat ->
    dis_sim_local_int xsum argpart xtrunc (zmat n m x) (Z.of_nat k) nj None res ->
    let y i f := IZR (x i f) in
    let N i := d_nn argpart (fun t => (t =? i)%nat) (fun t => sqdistR m (y i) (y t)) n k in
    ((1 < nj)%Z -> res = Raise TypeError) /\
    ((nj <= 1)%Z -> exists L, res = Ok L /\ nrow L = n /\ ncol L = n /\
      (forall i, (i < n)%nat -> at2 L i i = XNInf) /\
      (forall i j, (i < n)%nat -> (j < n)%nat -> i <> j ->
         at2 L i j = XFin (sqdistR m (y i) (y j) - sqdistR m (y i) (truncated y (N i)) - sqdistR m (y j) (truncated y (N j))))).
  Proof.
    intros Hm Hk H y N. change (as_float (zmat n m x)) with (rmat n m y) in *.
    destruct (euclid_fin (rmat n m y) (rmat n m y) y y (rmat_finite n m y) (rmat_finite n m y)) as (D & ED & RD & CD & FD); try (cbn; lia).
    cbn [rmat nrow ncol] in RD, CD, FD.
    inversion_clear H as [| Y0 e Hm0 Hbad | D0 c ED0 Hc |]; change (as_float (zmat n m x)) with (rmat n m y) in *.
    - cbv zeta in Hbad. change (as_float (zmat n m x)) with (rmat n m y) in Hbad. unfold bind in Hbad. rewrite ED in Hbad. discriminate.
    - rewrite ED in ED0. injection ED0 as <-.
      destruct (dsl_centroids_fin argpart AP (fill_diagonal D ninf) (rmat n m y) (fun i t => (t =? i)%nat) (fun i t => sqdistR m (y i) (y t)) y n k nj c) as (cc & -> & Hcc); auto using rmat_finite.
      + intros i Hi. cbn [fill_diagonal nrow] in Hi. rewrite RD in Hi. rewrite filter_neq_len by assumption. lia.
      + intros i t Hi Ht. cbn [fill_diagonal nrow at2] in Hi |- *. rewrite (Nat.eqb_sym i t). destruct (t =? i)%nat; [reflexivity|]. apply FD; lia.
      + cbn [bind]. split; intros Hj.
        { apply Z.ltb_lt in Hj. rewrite Hj. reflexivity. }
        apply Z.ltb_ge in Hj. rewrite Hj. cbn [guard bind].
        eexists. split; [reflexivity|]. cbn [fill_diagonal nrow ncol at2]. split; [exact RD|]. split; [exact CD|]. split.
        * intros i Hi. rewrite Nat.eqb_refl. reflexivity.
        * intros i j Hi Hjj Hne. apply Nat.eqb_neq in Hne. rewrite Hne. rewrite FD by lia.
          rewrite (sq_int_fin m (zmat n m x) cc (centroidR y (N i)) i eq_refl).
          2:{ intros f Hf. apply Hcc; [cbn; lia|exact Hf]. }
          rewrite (sq_int_fin m (zmat n m x) cc (centroidR y (N j)) j eq_refl).
          2:{ intros f Hf. apply Hcc; [cbn; lia|exact Hf]. }
          reflexivity.
  Qed.

  (** Integer vectors, one process: all local centroids are truncated to
      integers.  With worker processes the call raises TypeError. *)
  Theorem C135_integer_vectors : forall n m (x : nat -> nat -> Z) k n_jobs res, (0 < m)%nat -> (0 < k < n)%nat ->
    dis_sim_local_int xsum argpart xtrunc (zmat n m x) (Z.of_nat k) n_jobs None res ->
    ((1 < n_jobs)%Z -> res = Raise TypeError) /\
    ((n_jobs <= 1)%Z -> exists L (N : nat -> list nat), res = Ok L /\ nrow L = n /\ ncol L = n /\
      (forall i, (i < n)%nat -> top_k Rle (fun t => sqdistR m (fun f => IZR (x i f)) (fun f => IZR (x t f)))
                                  (filter (fun t => negb (t =? i)%nat) (seq 0 n)) k (N i)) /\
      (forall i, (i < n)%nat -> at2 L i i = XNInf) /\
      (forall i j, (i < n)%nat -> (j < n)%nat -> i <> j ->
         let p t f := IZR (x t f) in
         let cut l f := IZR (Ztrunc (centroidR p l f)) in
         at2 L i j = XFin (sqdistR m (p i) (p j) - sqdistR m (p i) (cut (N i)) - sqdistR m (p j) (cut (N j))))).
  Proof.
    intros n m x k nj res Hm Hk H. destruct (int_self n m x k nj res Hm Hk H) as (A & B). split; [exact A|].
    intros Hj. destruct (B Hj) as (L & -> & R1 & R2 & Hd & Hv).
    exists L, (fun i => d_nn argpart (fun t => (t =? i)%nat) (fun t => sqdistR m (fun f => IZR (x i f)) (fun f => IZR (x t f))) n k).
    split; [reflexivity|]. split; [exact R1|]. split; [exact R2|]. split; [|split; [exact Hd|exact Hv]].
    intros i Hi. apply d_nn_top; [assumption|lia|]. rewrite filter_neq_len by assumption. lia.
  Qed.

  (** The same values as floats give the documented result; it is the same if
      all coordinates of all centroids of k vectors are integers, e.g. for k = 1. *)
  Theorem C135_same_if_centroids_integral : forall n m (x : nat -> nat -> Z) k res res', (0 < m)%nat -> (0 < k < n)%nat ->
    (forall l f, length l = k -> (forall t, In t l -> (t < n)%nat) -> (f < m)%nat ->
       exists z, centroidR (fun t f => IZR (x t f)) l f = IZR z) ->
    dis_sim_local_int xsum argpart xtrunc (zmat n m x) (Z.of_nat k) 1 None res ->
    dis_sim_local xsum argpart (rmat n m (fun t f => IZR (x t f))) (Z.of_nat k) 1 None res' ->
    exists L L', res = Ok L /\ res' = Ok L' /\ eq2 L L'.
  Proof.
    intros n m x k res res' Hm Hk HI H H'. destruct (int_self n m x k 1 res Hm Hk H) as (_ & B).
    destruct (B ltac:(lia)) as (L & -> & R1 & C1 & Hd & Hv). set (y := fun i f => IZR (x i f)) in *.
    destruct (dsl_self_explicit argpart AP n m y k 1 res' Hm Hk H') as (L' & -> & R2 & C2 & Hd' & Hv').
    exists L, L'. split; [reflexivity|]. split; [reflexivity|]. split; [congruence|]. split; [congruence|].
    intros i j Hi Hj. rewrite R1 in Hi. rewrite C1 in Hj. destruct (Nat.eq_dec i j) as [<-|Hne].
    - rewrite Hd, Hd' by assumption. reflexivity.
    - rewrite Hv, Hv' by assumption. unfold cent_sq.
      assert (Q : forall i, (i < n)%nat -> let l := d_nn argpart (fun t => (t =? i)%nat) (fun t => sqdistR m (y i) (y t)) n k in
        sqdistR m (y i) (truncated y l) = sqdistR m (y i) (centroidR y l)).
      { clear i j Hi Hj Hne. intros i Hi l. unfold sqdistR. apply rsum_ext. intros f Hf. apply in_seq in Hf.
        assert (T : top_k Rle (fun t => sqdistR m (y i) (y t)) (filter (fun t => negb (t =? i)%nat) (seq 0 n)) k l).
        { apply d_nn_top; [assumption|lia|]. rewrite filter_neq_len by assumption. lia. }
        destruct T as (Ln & _ & Hin & _).
        destruct (HI l f) as (z & Ez); [exact Ln| |lia|].
        { intros t Ht. apply Hin in Ht. apply filter_In in Ht as (Ht & _). apply in_seq in Ht. lia. }
        unfold truncated. rewrite Ez, Ztrunc_IZR. reflexivity. }
      exact (f_equal2 (fun a b => XFin (sqdistR m (y i) (y j) - a - b)) (Q i Hi) (Q j Hj)).
  Qed.

  (** Two sets of integer vectors. *)
  Theorem C135_two_sets : forall n ny m (x y : nat -> nat -> Z) k n_jobs res, (0 < n)%nat -> (0 < m)%nat -> (0 < k < ny)%nat ->
    dis_sim_local_int xsum argpart xtrunc (zmat n m x) (Z.of_nat k) n_jobs (Some (zmat ny m y)) res ->
    ((1 < n_jobs)%Z -> res = Raise TypeError) /\
    ((n_jobs <= 1)%Z -> exists L (NX NY : nat -> list nat), res = Ok L /\ nrow L = n /\ ncol L = ny /\
      let p t f := IZR (x t f) in let q t f := IZR (y t f) in
      let cut l f := IZR (Ztrunc (centroidR q l f)) in
      (forall i, (i < n)%nat -> top_k Rle (fun t => sqdistR m (p i) (q t)) (seq 0 ny) k (NX i)) /\
      (forall j, (j < ny)%nat -> top_k Rle (fun t => sqdistR m (q j) (q t)) (seq 0 ny) k (NY j)) /\
      (forall i j, (i < n)%nat -> (j < ny)%nat ->
         at2 L i j = XFin (sqdistR m (p i) (q j) - sqdistR m (p i) (cut (NX i)) - sqdistR m (q j) (cut (NY j))))).
  Proof.
    intros n ny m x y k nj res Hn Hm Hk H. set (p := fun t f => IZR (x t f)). set (q := fun t f => IZR (y t f)).
    destruct (euclid_fin (rmat ny m q) (rmat ny m q) q q (rmat_finite ny m q) (rmat_finite ny m q)) as (D1 & E1 & R1 & C1 & F1); try (cbn; lia).
    destruct (euclid_fin (rmat n m p) (rmat ny m q) p q (rmat_finite n m p) (rmat_finite ny m q)) as (D2 & E2 & R2 & C2 & F2); try (cbn; lia).
    cbn [rmat nrow ncol] in R1, C1, F1, R2, C2, F2.
    assert (FA : filter (fun _ : nat => negb false) (seq 0 ny) = seq 0 ny).
    { clear. induction (seq 0 ny) as [|a l IH]; [reflexivity|]. cbn. now f_equal. }
    assert (Hcnt : (k <= length (filter (fun _ : nat => negb false) (seq 0 ny)))%nat) by (rewrite FA, seq_length; lia).
    set (N := fun v => d_nn argpart (fun _ => false) (fun t => sqdistR m v (q t)) ny k).
    inversion_clear H as [Y0 Hd | Y0 e Hm0 Hbad | | Y0 Dtr Dte cx cy Hd Etr Ete Hcx Hcy];
      change (as_float (zmat n m x)) with (rmat n m p) in *; change (as_float (zmat ny m y)) with (rmat ny m q) in *.
    - cbn in Hd. congruence.
    - cbv zeta in Hbad. change (as_float (zmat ny m y)) with (rmat ny m q) in Hbad. change (as_float (zmat n m x)) with (rmat n m p) in Hbad.
      unfold bind in Hbad. rewrite E1, E2 in Hbad. discriminate.
    - rewrite E1 in Etr. injection Etr as <-. rewrite E2 in Ete. injection Ete as <-.
      destruct (dsl_centroids_fin argpart AP D2 (rmat ny m q) (fun _ _ => false) (fun i t => sqdistR m (p i) (q t)) q ny k nj cx) as (cc & -> & Hcc); auto using rmat_finite.
      { intros i t Hi Ht. apply F2; lia. }
      destruct (dsl_centroids_fin argpart AP D1 (rmat ny m q) (fun _ _ => false) (fun i t => sqdistR m (q i) (q t)) q ny k nj cy) as (cd & -> & Hcd); auto using rmat_finite.
      { intros i t Hi Ht. apply F1; lia. }
      cbn [bind]. split; intros Hj.
      { apply Z.ltb_lt in Hj. rewrite Hj. reflexivity. }
      apply Z.ltb_ge in Hj. rewrite Hj. cbn [guard bind].
      eexists. exists (fun i => N (p i)), (fun j => N (q j)). split; [reflexivity|]. cbn [nrow ncol at2]. split; [exact R2|]. split; [exact C2|].
      cbv zeta. split; [|split].
      + intros i Hi. rewrite <- FA. apply (d_nn_top argpart AP); [lia|exact Hcnt].
      + intros j Hjj. rewrite <- FA. apply (d_nn_top argpart AP); [lia|exact Hcnt].
      + intros i j Hi Hjj. rewrite F2 by lia.
        rewrite (sq_int_fin m (zmat n m x) cc (centroidR q (N (p i))) i eq_refl).
        2:{ intros f Hf. apply Hcc; [lia|exact Hf]. }
        rewrite (sq_int_fin m (zmat ny m y) cd (centroidR q (N (q j))) j eq_refl).
        2:{ intros f Hf. apply Hcd; [lia|exact Hf]. }
        reflexivity.
  Qed.
End C135.

(** For 0/1 vectors a truncated centroid has a 1 only where all neighbours have one. *)
Theorem C135_binary_vectors : forall (x : nat -> nat -> Z) (l : list nat) f, l <> [] ->
  (forall t, In t l -> x t f = 0%Z \/ x t f = 1%Z) ->
  Ztrunc (centroidR (fun t f => IZR (x t f)) l f) = if forallb (fun t => Z.eqb (x t f) 1) l then 1%Z else 0%Z.
Proof.
  intros x l f NE Hb. unfold centroidR.
  set (s := rsum (map (fun i => IZR (x i f)) l)).
  assert (B : 0 <= s <= INR (length l) /\ (forallb (fun t => Z.eqb (x t f) 1) l = true -> s = INR (length l)) /\
              (forallb (fun t => Z.eqb (x t f) 1) l = false -> s <= INR (length l) - 1)).
  { subst s. clear NE. induction l as [|t l IH].
    - cbn. repeat split; try lra; discriminate.
    - destruct IH as (I1 & I2 & I3); [intros u Hu; apply Hb; now right|]. cbn [map forallb].
      replace (INR (length (t :: l))) with (1 + INR (length l)) by (cbn [length]; rewrite S_INR; ring).
      change (rsum (IZR (x t f) :: map (fun i => IZR (x i f)) l)) with (IZR (x t f) + rsum (map (fun i => IZR (x i f)) l)).
      destruct (Hb t (or_introl eq_refl)) as [E|E]; rewrite E; cbn [Z.eqb Pos.eqb andb].
      + split; [split; lra|]. split; [discriminate|]. intros _. lra.
      + split; [split; lra|]. split; [intros Hf; rewrite (I2 Hf); reflexivity|intros Hf; specialize (I3 Hf); lra]. }
  assert (PL : 0 < INR (length l)) by (apply lt_0_INR; destruct l; [congruence|cbn; lia]).
  destruct B as (B1 & B2 & B3). destruct (forallb _ l).
  - rewrite (B2 eq_refl). unfold Rdiv. rewrite Rinv_r by lra. exact (Ztrunc_IZR 1).
  - specialize (B3 eq_refl).
    assert (Q1 : 0 <= s / INR (length l)) by (apply Rmult_le_pos; [lra|apply Rlt_le, Rinv_0_lt_compat; lra]).
    assert (Q2 : s / INR (length l) < 1).
    { apply (Rmult_lt_reg_r (INR (length l))); [lra|]. unfold Rdiv. rewrite Rmult_assoc, Rinv_l by lra. lra. }
    rewrite Ztrunc_floor by exact Q1. apply Zfloor_imp. cbn. lra.
Qed.

(** ** A concrete case: 0, 1, 3 on a line, k = 2.  The values differ from
    those of the same numbers stored as floats, so does the order of the pairs. *)
Definition line3 (i f : nat) : Z := match i with 0%nat => 0 | 1%nat => 1 | _ => 3 end%Z.
Lemma pair_list (A B : nat) l : A <> B -> length l = 2%nat -> NoDup l -> (forall t, In t l -> In t [A; B]) -> l = [A; B] \/ l = [B; A].
Proof.
  intros NE L ND H. destruct l as [|a [|b [|c l]]]; try discriminate.
  inversion_clear ND as [|? ? Na _]. cbn in Na.
  pose proof (H a (or_introl eq_refl)) as Ha. pose proof (H b (or_intror (or_introl eq_refl))) as Hb. cbn in Ha, Hb.
  destruct Ha as [<-|[<-|[]]], Hb as [<-|[<-|[]]]; auto; tauto.
Qed.

Theorem C135_witness : forall argpart res res', argpart_ok argpart ->
  dis_sim_local_int xsum argpart xtrunc (zmat 3 1 line3) 2 1 None res ->
  dis_sim_local xsum argpart (rmat 3 1 (fun i f => IZR (line3 i f))) 2 1 None res' ->
  exists L L', res = Ok L /\ res' = Ok L' /\
    (** for the object at 1, integers put the object at 3 nearest *)
    at2 L 1 0 = XFin (-3) /\ at2 L 1 2 = XFin (-5) /\
    (** floats put the object at 0 nearest *)
    at2 L' 1 0 = XFin (-13/4) /\ at2 L' 1 2 = XFin (-5/2).
Proof.
  intros argpart res res' AP H H'.
  destruct (C135_integer_vectors argpart AP 3 1 line3 2 1 res ltac:(lia) ltac:(lia) H) as (_ & B).
  destruct (B ltac:(lia)) as (L & N & -> & _ & _ & HN & _ & Hv).
  destruct (C56_dis_sim_local argpart 3 1 (fun i f => IZR (line3 i f)) 2 1 res' AP ltac:(lia) ltac:(lia) H') as (L' & N' & -> & _ & _ & HN' & _ & Hv').
  exists L, L'. split; [reflexivity|]. split; [reflexivity|].
  rewrite !Hv, !Hv' by lia. cbv zeta.
  set (p := fun t f : nat => IZR (line3 t f)) in *.
  assert (C : forall M : nat -> list nat, (forall i, (i < 3)%nat -> top_k Rle (fun t => sqdistR 1 (p i) (p t)) (filter (fun t => negb (t =? i)%nat) (seq 0 3)) 2 (M i)) ->
    centroidR p (M 0%nat) 0 = 2 /\ centroidR p (M 1%nat) 0 = 3/2 /\ centroidR p (M 2%nat) 0 = 1/2).
  { intros M HM. unfold centroidR, p.
    destruct (HM 0%nat ltac:(lia)) as (l0 & d0 & i0 & _). destruct (HM 1%nat ltac:(lia)) as (l1 & d1 & i1 & _). destruct (HM 2%nat ltac:(lia)) as (l2 & d2 & i2 & _).
    destruct (pair_list 1 2 _ ltac:(lia) l0 d0 i0) as [-> | ->], (pair_list 0 2 _ ltac:(lia) l1 d1 i1) as [-> | ->],
      (pair_list 0 1 _ ltac:(lia) l2 d2 i2) as [-> | ->]; cbn; repeat split; field. }
  destruct (C N HN) as (E0 & E1 & E2). destruct (C N' HN') as (F0 & F1 & F2).
  assert (T1 : Ztrunc (3/2) = 1%Z) by (rewrite Ztrunc_floor by lra; apply Zfloor_imp; cbn; lra).
  assert (T2 : Ztrunc (1/2) = 0%Z) by (rewrite Ztrunc_floor by lra; apply Zfloor_imp; cbn; lra).
  assert (T0 : Ztrunc 2 = 2%Z) by exact (Ztrunc_IZR 2).
  unfold sqdistR. cbn [seq map]. rewrite E0, E1, E2, F0, F1, F2, T0, T1, T2. unfold p. cbn.
  repeat split; f_equal; field.
Qed.

(** The hypotheses can be met: every call on integers has an outcome. *)
Theorem C135_some_outcome :
  forall (argpart : list xr -> list nat -> list nat) X Y k n_jobs, exists res, dis_sim_local_int xsum argpart xtrunc X k n_jobs Y res.
Proof.
  intros argpart X Y k nj. destruct Y as [Y|].
  - destruct (Nat.eq_dec (ncol X) (ncol Y)) as [E|E].
    + destruct (euclidean_distances_sq xsum (as_float Y) (as_float Y)) as [D1|e] eqn:E1.
      2:{ exists (Raise e). apply dsi_bad; [assumption|]. cbn. now rewrite E1. }
      destruct (euclidean_distances_sq xsum (as_float X) (as_float Y)) as [D2|e] eqn:E2.
      2:{ exists (Raise e). apply dsi_bad; [assumption|]. cbn. rewrite E1. now rewrite E2. }
      destruct (dsl_centroids_exists xsum argpart D2 (as_float Y) k nj) as (c & Hc). destruct (dsl_centroids_exists xsum argpart D1 (as_float Y) k nj) as (d & Hd).
      eexists. eapply dsi_two; eauto.
    + eexists. now apply dsi_dim.
  - destruct (euclidean_distances_sq xsum (as_float X) (as_float X)) as [D|e] eqn:E1.
    + destruct (dsl_centroids_exists xsum argpart (fill_diagonal D ninf) (as_float X) k nj) as (c & Hc). eexists. eapply dsi_self; eauto.
    + exists (Raise e). apply dsi_bad; [exact I|]. cbn. now rewrite E1.
Qed.

Example C135_case : forall argpart, argpart_ok argpart -> exists L,
  dis_sim_local_int xsum argpart xtrunc (zmat 3 1 line3) 2 1 None (Ok L) /\ at2 L 1 0 = XFin (-3) /\ at2 L 1 2 = XFin (-5).
Proof.
  intros argpart AP. destruct (C135_some_outcome argpart (zmat 3 1 line3) None 2 1) as (res & H).
  assert (H' : exists res', dis_sim_local xsum argpart (rmat 3 1 (fun i f => IZR (line3 i f))) 2 1 None res').
  { destruct (euclidean_distances_sq xsum (rmat 3 1 (fun i f => IZR (line3 i f))) (rmat 3 1 (fun i f => IZR (line3 i f)))) as [D|e] eqn:E1.
    + destruct (dsl_centroids_exists xsum argpart (fill_diagonal D ninf) (rmat 3 1 (fun i f => IZR (line3 i f))) 2 1) as (c & Hc). eexists. eapply dsl_self; eauto.
    + exists (Raise e). apply dsl_bad; [exact I|]. cbn -[euclidean_distances_sq]. now rewrite E1. }
  destruct H' as (res' & H').
  destruct (C135_witness argpart res res' AP H H') as (L & L' & -> & _ & A & B & _). exists L. auto.
Qed.

Print Assumptions C135_integer_vectors.
Print Assumptions C135_same_if_centroids_integral.
Print Assumptions C135_two_sets.
Print Assumptions C135_binary_vectors.
Print Assumptions C135_witness.
Print Assumptions C135_some_outcome.
