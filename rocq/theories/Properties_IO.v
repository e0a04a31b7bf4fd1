(** C39, C40, C60, C61: io.py *)
From Coq Require Import String Ascii.
From Coq Require Import ZArith Reals Lra Lia List Arith Bool.
From Verif Require Import Py Num Arr S_Neighbors M_IO.
Import ListNotations.
Local Open Scope nat_scope.

(* ------------------------------------------------------------------ *)
(** ** C39: each check accepts exactly the documented shapes, and raises the
    documented exception otherwise *)
(** an array of the given shape, dense or sparse *)
Definition has_shape (a : pyarr) (s : list nat) : Prop := a = Dense s \/ exists r c, a = Sparse r c /\ s = [r; c].
Definition dense_shape (a : pyarr) (s : list nat) : Prop := a = Dense s.

Definition accepts_exactly (outcome : result unit) (P : Prop) (e : exc) : Prop :=
  (P -> outcome = Ok tt) /\ (~ P -> outcome = Raise e).

Ltac two s := destruct s as [|? [|? [|? ?]]].

Theorem C39_nd_array : forall a n,
  accepts_exactly (check_is_nD_array a n) (exists s, has_shape a s /\ length s = n) TypeError.
Proof.
  intros [|s|r c] n; (split; [intros (s0 & H & L)|intros H]).
  - destruct H as [H|(r & c & H & _)]; discriminate.
  - reflexivity.
  - destruct H as [H|(r & c & H & _)]; [|discriminate]. injection H as <-. cbn. rewrite L, Nat.eqb_refl. reflexivity.
  - cbn. destruct (length s =? n) eqn:E; [|reflexivity]. exfalso. apply H. exists s. split; [now left|now apply Nat.eqb_eq].
  - destruct H as [H|(r' & c' & H & ->)]; [discriminate|]. cbn in L. subst. reflexivity.
  - cbn. destruct n as [|[|[|n]]]; cbn; try reflexivity. exfalso. apply H. exists [r; c]. split; [right; now exists r, c|reflexivity].
Qed.

Lemma nd2 a : check_is_nD_array a 2 = Ok tt -> exists r c, has_shape a [r; c].
Proof.
  destruct a as [|s|r c]; cbn; [discriminate| |].
  - two s; cbn; try discriminate. intros _. eexists _, _. left. reflexivity.
  - intros _. exists r, c. right. now exists r, c.
Qed.
Lemma nd1 a : check_is_nD_array a 1 = Ok tt -> exists n, dense_shape a [n].
Proof.
  destruct a as [|s|r c]; cbn; [discriminate| |discriminate].
  two s; cbn; try discriminate. intros _. eexists. reflexivity.
Qed.
Lemma nd_raise a n e : check_is_nD_array a n = Raise e -> e = TypeError.
Proof. destruct a as [|s|r c]; cbn; unfold guard; [congruence| |]; destruct (negb _); congruence. Qed.
Lemma nd2_ok a r c : has_shape a [r; c] -> check_is_nD_array a 2 = Ok tt /\ dim0 a = r /\ dim1 a = c.
Proof. intros [->|(r' & c' & -> & E)]; [now cbn|]. injection E as -> ->. now cbn. Qed.
Lemma nd1_ok a n : dense_shape a [n] -> check_is_nD_array a 1 = Ok tt /\ size_of a = n /\ issparse a = false.
Proof. intros ->. cbn. split; [reflexivity|]. split; [unfold size_of; cbn; lia|reflexivity]. Qed.

Theorem C39_distance_matrix : forall D,
  accepts_exactly (check_distance_matrix_shape D) (exists n, has_shape D [n; n]) TypeError.
Proof.
  intros D. unfold check_distance_matrix_shape. split.
  - intros (n & H). destruct (nd2_ok _ _ _ H) as (-> & -> & ->). cbn. now rewrite Nat.eqb_refl.
  - intros H. destruct (check_is_nD_array D 2) as [[]|e] eqn:E; cbn [bind]; [|now rewrite (nd_raise _ _ _ E)].
    destruct (nd2 _ E) as (r & c & S). destruct (nd2_ok _ _ _ S) as (_ & -> & ->).
    destruct (r =? c) eqn:Q; [|reflexivity]. apply Nat.eqb_eq in Q. subst. exfalso. apply H. now exists c.
Qed.

Theorem C39_fits_vectors : forall D X,
  accepts_exactly (check_distance_matrix_shape_fits_vectors D X)
    (exists n m f, has_shape D [n; m] /\ has_shape X [n; f]) TypeError.
Proof.
  intros D X. unfold check_distance_matrix_shape_fits_vectors. split.
  - intros (n & m & f & HD & HX). destruct (nd2_ok _ _ _ HD) as (-> & -> & _). destruct (nd2_ok _ _ _ HX) as (-> & -> & _). cbn. now rewrite Nat.eqb_refl.
  - intros H. destruct (check_is_nD_array D 2) as [[]|e] eqn:E; cbn [bind]; [|now rewrite (nd_raise _ _ _ E)].
    destruct (check_is_nD_array X 2) as [[]|e] eqn:E'; cbn [bind]; [|now rewrite (nd_raise _ _ _ E')].
    destruct (nd2 _ E) as (r & c & S). destruct (nd2_ok _ _ _ S) as (_ & -> & _).
    destruct (nd2 _ E') as (r' & c' & S'). destruct (nd2_ok _ _ _ S') as (_ & -> & _).
    destruct (r =? r') eqn:Q; [|reflexivity]. apply Nat.eqb_eq in Q. subst. exfalso. apply H. now exists r', c, c'.
Qed.

Theorem C39_fits_labels : forall D y,
  accepts_exactly (check_distance_matrix_shape_fits_labels D y)
    (exists n m, has_shape D [n; m] /\ dense_shape y [n]) TypeError /\
  accepts_exactly (check_vector_matrix_shape_fits_labels D y)
    (exists n m, has_shape D [n; m] /\ dense_shape y [n]) TypeError.
Proof.
  assert (G : forall D y, accepts_exactly (check_distance_matrix_shape_fits_labels D y)
    (exists n m, has_shape D [n; m] /\ dense_shape y [n]) TypeError); [|split; apply G].
  intros D X. unfold check_distance_matrix_shape_fits_labels. split.
  - intros (n & m & HD & HX). destruct (nd2_ok _ _ _ HD) as (-> & -> & _). destruct (nd1_ok _ _ HX) as (-> & -> & _). cbn. now rewrite Nat.eqb_refl.
  - intros H. destruct (check_is_nD_array D 2) as [[]|e] eqn:E; cbn [bind]; [|now rewrite (nd_raise _ _ _ E)].
    destruct (check_is_nD_array X 1) as [[]|e] eqn:E'; cbn [bind]; [|now rewrite (nd_raise _ _ _ E')].
    destruct (nd2 _ E) as (r & c & S). destruct (nd2_ok _ _ _ S) as (_ & -> & _).
    destruct (nd1 _ E') as (r' & S'). destruct (nd1_ok _ _ S') as (_ & -> & _).
    destruct (r' =? r) eqn:Q; [|reflexivity]. apply Nat.eqb_eq in Q. subst. exfalso. apply H. now exists r, c.
Qed.

(** a sample index: as many as columns; more columns than rows is a ValueError
    (whatever the index), everything else a TypeError *)
Theorem C39_sample : forall D idx,
  ((exists n s, dense_shape D [n; s] /\ dense_shape idx [s] /\ s <= n) -> check_sample_shape_fits D idx = Ok tt) /\
  ((exists n s k, dense_shape D [n; s] /\ dense_shape idx [k] /\ n < s) -> check_sample_shape_fits D idx = Raise ValueError) /\
  (~ (exists n s, dense_shape D [n; s] /\ dense_shape idx [s] /\ s <= n) ->
   ~ (exists n s k, dense_shape D [n; s] /\ dense_shape idx [k] /\ n < s) -> check_sample_shape_fits D idx = Raise TypeError).
Proof.
  intros D idx. split; [|split].
  - intros (n & s & -> & -> & H). cbn -[Nat.ltb]. rewrite (proj2 (Nat.ltb_ge _ _) H). cbn. now rewrite Nat.mul_1_r, Nat.eqb_refl.
  - intros (n & s & k & -> & -> & H). cbn -[Nat.ltb]. now rewrite (proj2 (Nat.ltb_lt _ _) H).
  - intros H1 H2. unfold check_sample_shape_fits. destruct (issparse D || issparse idx) eqn:Sp; [reflexivity|]. cbn [guard bind].
    apply orb_false_iff in Sp. destruct Sp as (S1 & S2).
    destruct (check_is_nD_array D 2) as [[]|e] eqn:E; cbn [bind]; [|now rewrite (nd_raise _ _ _ E)].
    destruct (check_is_nD_array idx 1) as [[]|e] eqn:E'; cbn [bind]; [|now rewrite (nd_raise _ _ _ E')].
    destruct (nd2 _ E) as (r & c & S). destruct (nd2_ok _ _ _ S) as (_ & -> & ->). destruct (nd1 _ E') as (k & S'). destruct (nd1_ok _ _ S') as (_ & -> & _).
    destruct S as [S|(a & b & S & _)]; [|rewrite S in S1; discriminate].
    destruct (r <? c) eqn:L; [apply Nat.ltb_lt in L; exfalso; apply H2; now exists r, c, k|]. cbn [guard bind].
    destruct (c =? k) eqn:Q; [|reflexivity]. apply Nat.eqb_eq in Q. subst k. apply Nat.ltb_ge in L. exfalso. apply H1. now exists r, c.
Qed.

Theorem C39_metric : forall metric,
  accepts_exactly (check_valid_metric_parameter metric) (metric = "distance"%string \/ metric = "similarity"%string) ValueError.
Proof.
  intros metric. unfold check_valid_metric_parameter, is_dist, is_sim. split.
  - intros [-> | ->]; reflexivity.
  - intros H. destruct (String.eqb metric "distance") eqn:E; [apply String.eqb_eq in E; exfalso; apply H; now left|].
    destruct (String.eqb metric "similarity") eqn:E'; [apply String.eqb_eq in E'; exfalso; apply H; now right|]. reflexivity.
Qed.

Example C39_case : has_shape (Dense [4; 4]) [4; 4] /\ has_shape (Sparse 4 4) [4; 4] /\
  (forall s, ~ has_shape NotArray s) /\ dense_shape (Dense [4]) [4].
Proof.
  split; [now left|]. split; [right; now exists 4, 4|]. split; [|reflexivity].
  intros s [H|(r & c & H & _)]; discriminate.
Qed.

(* ------------------------------------------------------------------ *)
(** ** C40: save then load *)
(** a CSR matrix as scipy keeps them *)
Definition wf_csr {V} (m : csr V) : Prop :=
  length (csr_indptr m) = csr_rows m + 1 /\ nth 0 (csr_indptr m) 0 = 0 /\
  length (csr_indices m) = length (csr_data m) /\
  (forall i, i < csr_rows m -> nth i (csr_indptr m) 0 <= nth (S i) (csr_indptr m) 0) /\
  nth (csr_rows m) (csr_indptr m) 0 <= length (csr_data m).

Lemma eqb_refl' s : String.eqb s s = true. Proof. apply String.eqb_refl. Qed.
Lemma ptr_le {V} (m : csr V) i : wf_csr m -> i <= csr_rows m -> nth i (csr_indptr m) 0 <= nth (csr_rows m) (csr_indptr m) 0.
Proof.
  intros (_ & _ & _ & M & _) Hi. remember (csr_rows m - i) as d. revert i Hi Heqd. induction d as [|d IH]; intros i Hi Hd.
  - replace i with (csr_rows m) by lia. lia.
  - specialize (M i ltac:(lia)). specialize (IH (S i) ltac:(lia) ltac:(lia)). lia.
Qed.

(** with a name that ends in .npz the round trip works, overwriting whatever
    was there: same shape, row pointers and dense contents, and the same arrays
    unless the original had unused storage *)
Theorem C40_round_trip : forall {V} {N : Num V} (fs : fsys V) file m, wf_csr m -> ends_with ".npz" file = true ->
  exists m', load_csr_matrix (fst (save_csr_matrix fs file m)) (snd (save_csr_matrix fs file m)) = Ok m' /\
    csr_rows m' = csr_rows m /\ csr_cols m' = csr_cols m /\ csr_indptr m' = csr_indptr m /\
    (forall i j, i < csr_rows m -> csr_at m' i j = csr_at m i j) /\
    (nth (csr_rows m) (csr_indptr m) 0 = length (csr_data m) -> m' = m).
Proof.
  intros V N fs file m W E. pose proof W as (W1 & W2 & W3 & W4 & W5).
  unfold load_csr_matrix, save_csr_matrix, savez_name. rewrite E. cbn [fst snd]. rewrite eqb_refl'. cbn.
  unfold csr_matrix. rewrite W1, Nat.eqb_refl. cbn [negb guard bind]. rewrite W2. cbn [Nat.eqb negb guard bind]. rewrite W3, Nat.eqb_refl. cbn [negb guard bind].
  replace (length (csr_data m) <? nth (csr_rows m) (csr_indptr m) 0) with false by (symmetry; apply Nat.ltb_ge; lia). cbn [guard bind].
  eexists. split; [reflexivity|]. cbn. split; [reflexivity|]. split; [reflexivity|]. split; [reflexivity|]. split.
  - intros i j Hi. unfold csr_at. cbn. do 3 f_equal.
    pose proof (ptr_le m (S i) W ltac:(lia)) as Hs. set (b := nth (S i) (csr_indptr m) 0) in *. set (a := nth i (csr_indptr m) 0). set (z := nth (csr_rows m) (csr_indptr m) 0) in *.
    assert (CF : forall A B (l : list A) (l' : list B) n, combine (firstn n l) (firstn n l') = firstn n (combine l l')).
    { clear. intros A B l l' n. revert l l'. induction n; intros [|x l] [|y l']; cbn; try reflexivity. now rewrite IHn. }
    rewrite CF. unfold slice. generalize (combine (csr_indices m) (csr_data m)). intros l. rewrite skipn_firstn_comm, firstn_firstn. f_equal. lia.
  - intros Z. destruct m as [r c d i p]. cbn in *. rewrite Z. rewrite firstn_all. rewrite <- W3, firstn_all. reflexivity.
Qed.

(** DEFECT: with any other name the written file has a different name than the
    returned one: loading fails, or returns whatever was stored under that name *)
Lemma append_inj_r a b : String.length (String.append a b) = String.length a + String.length b.
Proof. induction a; cbn; [reflexivity|]. now rewrite IHa. Qed.

Theorem C40_name_without_npz : forall {V} (fs : fsys V) file m, ends_with ".npz" file = false ->
  let r := save_csr_matrix fs file m in
  snd r = file /\ fst r (String.append file ".npz") <> None /\
  load_csr_matrix (fst r) (snd r) = load_csr_matrix fs file /\
  (fs file = None -> load_csr_matrix (fst r) (snd r) = Raise FileNotFoundError).
Proof.
  intros V fs file m E r. unfold r, save_csr_matrix, savez_name. rewrite E. cbn [fst snd]. split; [reflexivity|]. rewrite eqb_refl'. split; [discriminate|].
  assert (Ne : String.eqb file (String.append file ".npz") = false).
  { apply String.eqb_neq. intros Q. apply (f_equal String.length) in Q. rewrite append_inj_r in Q. cbn in Q. lia. }
  unfold load_csr_matrix. rewrite Ne. split; [reflexivity|]. intros ->. reflexivity.
Qed.

(** 2 x 2, first row empty, one unused slot *)
Definition exC : csr xr := Csr 2 2 [XFin 1; XFin 2; XFin 9] [0; 1; 0] [0; 0; 2].
Example C40_case : wf_csr exC /\ ends_with ".npz" "a/b.npz" = true /\ ends_with ".npz" "a/b" = false /\
  csr_at exC 1 1 = XFin 2 /\ csr_at exC 0 1 = XFin 0.
Proof.
  split; [|split; [reflexivity|split; [reflexivity|split]]].
  - repeat split; cbn; try lia. intros [|[|i]] H; cbn; lia.
  - cbn. f_equal. lra.
  - reflexivity.
Qed.

(* ------------------------------------------------------------------ *)
(** ** C60: matrix_split *)
(** all rows are covered, no batch is empty, and nr_matrices copies of one batch
    fit into the free memory *)
Theorem C60_batches_cover_and_fit : forall free rows cols elem copies nb nr,
  matrix_split free rows cols elem copies = Ok (nb, nr) ->
  0 < nr /\ rows <= nb * nr /\ (0 < rows -> 0 < nb /\ (nb - 1) * nr < rows) /\ copies * (nr * cols * elem) <= free.
Proof.
  intros free rows cols elem copies nb nr. unfold matrix_split, guard.
  destruct (cols =? 0) eqn:E1; [discriminate|]. destruct (elem =? 0) eqn:E2; [discriminate|]. cbn [orb bind].
  destruct (copies =? 0) eqn:E3; [discriminate|]. cbn [bind].
  destruct (free / cols / elem / copies =? 0) eqn:E4; [discriminate|]. cbn [bind]. intros H. injection H as <- <-.
  apply Nat.eqb_neq in E1, E2, E3, E4. set (nr := free / cols / elem / copies) in *.
  pose proof (Nat.div_mod (rows + nr - 1) nr ltac:(lia)) as Q. pose proof (Nat.mod_upper_bound (rows + nr - 1) nr ltac:(lia)) as U.
  set (nb := (rows + nr - 1) / nr) in *. split; [lia|]. split; [nia|]. split.
  - intros Hr. assert (0 < nb) by nia. split; [assumption|]. destruct nb as [|b]; [lia|]. cbn. rewrite Nat.sub_0_r. nia.
  - assert (Eq : nr = free / (cols * (elem * copies))) by (unfold nr; rewrite !Nat.div_div by lia; reflexivity). rewrite Eq. clearbody nr.
    pose proof (Nat.mul_div_le free (cols * (elem * copies)) ltac:(intros Z; repeat (apply Nat.eq_mul_0 in Z; destruct Z as [Z|Z]); lia)) as Q2.
    eapply Nat.le_trans; [|exact Q2]. apply Nat.eq_le_incl. ring.
Qed.

(** DEFECT: when less than nr_matrices rows fit into the free memory there is no
    batch of one row, but ZeroDivisionError *)
Theorem C60_too_little_memory : forall free rows cols elem copies,
  0 < cols -> 0 < elem -> 0 < copies -> free < copies * (cols * elem) ->
  matrix_split free rows cols elem copies = Raise ZeroDivisionError.
Proof.
  intros free rows cols elem copies H1 H2 H3 H. unfold matrix_split, guard.
  rewrite (proj2 (Nat.eqb_neq cols 0)), (proj2 (Nat.eqb_neq elem 0)), (proj2 (Nat.eqb_neq copies 0)) by lia. cbn [orb bind].
  rewrite !Nat.div_div by lia. rewrite Nat.div_small by nia. reflexivity.
Qed.
Example C60_case : matrix_split 1000 10 5 8 4 = Ok (2, 6) /\ 100 < 4 * (5 * 8).
Proof. split; [reflexivity|lia]. Qed.

(* ------------------------------------------------------------------ *)
(** ** C61: random_sparse_matrix is a similarity matrix for every draw *)
Local Open Scope R_scope.
Theorem C61_valid_similarity : forall mx n (s : nat -> nat -> R),
  (forall l, l <> [] -> In (mx l) l /\ forall x, In x l -> nle x (mx l) = true) ->
  (forall i j, (i < n)%nat -> (j < n)%nat -> 0 <= s i j) ->
  let M := random_sparse_matrix mx n (fun i j => XFin (s i j)) in
  nrow M = n /\ ncol M = n /\
  (forall i, (i < n)%nat -> at2 M i i = XFin 1) /\
  (forall i j, (i < n)%nat -> (j < n)%nat -> at2 M i j = at2 M j i /\
     exists v, at2 M i j = XFin v /\ 0 <= v <= 1 /\ (i <> j -> (v = 0 <-> s i j = 0 /\ s j i = 0))).
Proof.
  intros mx n s Mx Hs M.
  pose (S1 := fun i j => nadd (XFin (s i j)) (XFin (s j i))). pose (L := flat_map (fun i => map (S1 i) (seq 0 n)) (seq 0 n)).
  pose (T := fun i j => if neq (S1 i j) n0 then S1 i j else nmul (S1 i j) (ndiv n1 (mx L))).
  assert (AT : forall i j, at2 M i j = if (i =? j)%nat then nadd (nsub (T i i) (T i i)) n1 else T i j) by reflexivity.
  split; [reflexivity|]. split; [reflexivity|]. clearbody M.
  assert (InL : forall i j, (i < n)%nat -> (j < n)%nat -> In (S1 i j) L).
  { intros i j Hi Hj. apply in_flat_map. exists i. split; [apply in_seq; lia|]. apply in_map. apply in_seq. lia. }
  assert (Big : (0 < n)%nat -> exists b, mx L = XFin b /\ forall i j, (i < n)%nat -> (j < n)%nat -> s i j + s j i <= b).
  { intros Hn. destruct (Mx L) as (I & U). { intros Z. pose proof (InL 0%nat 0%nat Hn Hn) as Q. rewrite Z in Q. destruct Q. }
    apply in_flat_map in I. destruct I as (i & Hi & I). apply in_map_iff in I. destruct I as (j & Ej & Hj).
    exists (s i j + s j i). rewrite <- Ej. split; [reflexivity|]. intros a b Ha Hb. pose proof (U _ (InL a b Ha Hb)) as Q. rewrite <- Ej in Q. cbn in Q.
    destruct (Rle_dec (s a b + s b a) (s i j + s j i)); [assumption|discriminate]. }
  assert (S2 : forall i j, (i < n)%nat -> (j < n)%nat -> exists v, T i j = XFin v /\
      0 <= v <= 1 /\ (v = 0 <-> s i j = 0 /\ s j i = 0) /\ (s i j + s j i <> 0 -> exists b, mx L = XFin b /\ v = (s i j + s j i) * (1 / b)) /\ (s i j + s j i = 0 -> v = 0)).
  { intros i j Hi Hj. destruct (Big ltac:(lia)) as (b & Eb & Ub). pose proof (Hs i j Hi Hj). pose proof (Hs j i Hj Hi). pose proof (Ub i j Hi Hj) as Ul.
    unfold T. replace (neq (S1 i j) n0) with (if Req_EM_T (s i j + s j i) 0 then true else false) by reflexivity.
    destruct (Req_EM_T (s i j + s j i) 0) as [Z|Z].
    - exists 0. cbn. rewrite Z. split; [reflexivity|]. split; [lra|]. split; [split; lra|]. split; [lra|reflexivity].
    - exists ((s i j + s j i) * (1 / b)). rewrite Eb. assert (Pb : 0 < b) by lra.
      assert (Dv : ndiv n1 (XFin b) = XFin (1 / b)).
      { cbn. destruct (Req_EM_T b 0); [lra|]. reflexivity. }
      rewrite Dv. split; [reflexivity|].
      assert (Pi : 0 < 1 / b) by (apply Rmult_lt_0_compat; [lra|now apply Rinv_0_lt_compat]).
      assert (P : 0 < (s i j + s j i) * (1 / b)) by (apply Rmult_lt_0_compat; lra).
      split; [split; [lra|]|].
      + apply Rle_trans with (b * (1 / b)); [apply Rmult_le_compat_r; lra|]. right. field. lra.
      + split; [split; lra|]. split; [intros _; now exists b|lra]. }
  split.
  - intros i Hi. rewrite AT, Nat.eqb_refl. destruct (S2 i i Hi Hi) as (v & -> & _). cbn. f_equal. lra.
  - intros i j Hi Hj. destruct (Nat.eq_dec i j) as [<-|Hne].
    + rewrite AT, Nat.eqb_refl. split; [reflexivity|]. destruct (S2 i i Hi Hi) as (v & -> & _). exists 1. cbn. split; [f_equal; lra|]. split; [lra|]. congruence.
    + rewrite !AT, (proj2 (Nat.eqb_neq i j) Hne), (proj2 (Nat.eqb_neq j i) ltac:(congruence)).
      destruct (S2 i j Hi Hj) as (v & -> & R1 & R2 & R3 & R4). destruct (S2 j i Hj Hi) as (w & -> & Q1 & Q2 & Q3 & Q4). split.
      * f_equal. destruct (Req_dec (s i j + s j i) 0) as [Z|Z]; [rewrite R4, Q4 by lra; reflexivity|].
        destruct (R3 Z) as (b & Eb & ->). destruct Q3 as (b' & Eb' & ->); [lra|]. rewrite Eb in Eb'. injection Eb' as <-. ring.
      * exists v. split; [reflexivity|]. split; [exact R1|]. intros _. exact R2.
Qed.
Example C61_case : (forall i j, (i < 2)%nat -> (j < 2)%nat -> 0 <= (fun a b : nat => if (a <? b)%nat then 1/2 else 0) i j).
Proof. intros i j _ _. cbn beta. destruct (i <? j)%nat; lra. Qed.

Print Assumptions C39_nd_array.
Print Assumptions C39_distance_matrix.
Print Assumptions C39_fits_vectors.
Print Assumptions C39_fits_labels.
Print Assumptions C39_sample.
Print Assumptions C39_metric.
Print Assumptions C40_round_trip.
Print Assumptions C40_name_without_npz.
Print Assumptions C60_batches_cover_and_fit.
Print Assumptions C60_too_little_memory.
Print Assumptions C61_valid_similarity.
