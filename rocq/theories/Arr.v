(** Arrays and the numpy primitives used by the code.

    A 2-D array is a shape and an index function; only entries inside the
    shape are meaningful and every statement about arrays is restricted to
    them.  1-D arrays are lists. *)
From Coq Require Import ZArith List Arith Lia Bool Permutation.
From Verif Require Import Py Num.
Import ListNotations.

Record arr2 (V : Type) := Arr2 { nrow : nat; ncol : nat; at2 : nat -> nat -> V }.
Arguments Arr2 {V} nrow ncol at2.
Arguments nrow {V} a.
Arguments ncol {V} a.
Arguments at2 {V} a i j.

(** equality of arrays: same shape, same contents *)
Definition eq2 {V} (A B : arr2 V) : Prop :=
  nrow A = nrow B /\ ncol A = ncol B /\
  forall i j, i < nrow A -> j < ncol A -> at2 A i j = at2 B i j.

(** literal arrays, for examples *)
Definition of_rows {V} (d : V) (l : list (list V)) : arr2 V :=
  Arr2 (length l) (length (hd [] l)) (fun i j => nth j (nth i l []) d).

(** [np.zeros((n, m))], [np.full] *)
Definition full2 {V} (n m : nat) (v : V) : arr2 V := Arr2 n m (fun _ _ => v).

(** [A[i, j] = v] *)
Definition set2 {V} (A : arr2 V) (i j : nat) (v : V) : arr2 V :=
  Arr2 (nrow A) (ncol A)
       (fun a b => if (a =? i) && (b =? j) then v else at2 A a b).

(** [A[i, lo:hi] = f(lo..hi-1)] *)
Definition setrow {V} (A : arr2 V) (i lo hi : nat) (f : nat -> V) : arr2 V :=
  Arr2 (nrow A) (ncol A)
       (fun a b => if (a =? i) && (lo <=? b) && (b <? hi) then f b else at2 A a b).

(** [A[lo:hi, j] = f(lo..hi-1)] *)
Definition setcol {V} (A : arr2 V) (lo hi j : nat) (f : nat -> V) : arr2 V :=
  Arr2 (nrow A) (ncol A)
       (fun a b => if (b =? j) && (lo <=? a) && (a <? hi) then f a else at2 A a b).

(** [np.fill_diagonal(A, v)]: for a 2-D array of any shape it writes the cells
    [(i, i)], [i < min(shape)], also for rectangular arrays. *)
Definition fill_diagonal {V} (A : arr2 V) (v : V) : arr2 V :=
  Arr2 (nrow A) (ncol A) (fun a b => if a =? b then v else at2 A a b).

(** [A[mask] = v] where the mask is given by the current value *)
Definition mask_value {V} (A : arr2 V) (p : V -> bool) (v : V) : arr2 V :=
  Arr2 (nrow A) (ncol A) (fun a b => if p (at2 A a b) then v else at2 A a b).

Definition transpose {V} (A : arr2 V) : arr2 V :=
  Arr2 (ncol A) (nrow A) (fun a b => at2 A b a).

Definition map2d {V W} (f : V -> W) (A : arr2 V) : arr2 W :=
  Arr2 (nrow A) (ncol A) (fun a b => f (at2 A a b)).

(** element-wise operation on two arrays of the same shape *)
Definition zip2 {V W U} (f : V -> W -> U) (A : arr2 V) (B : arr2 W) : arr2 U :=
  Arr2 (nrow A) (ncol A) (fun a b => f (at2 A a b) (at2 B a b)).

(** [A[i, :]] *)
Definition rowl {V} (A : arr2 V) (i : nat) : list V :=
  map (at2 A i) (seq 0 (ncol A)).

(** [A[:, j]] *)
Definition coll {V} (A : arr2 V) (j : nat) : list V :=
  map (fun i => at2 A i j) (seq 0 (nrow A)).

(** [for i in range(n): s = f(i, s)] *)
Definition for_ {S} (n : nat) (f : nat -> S -> S) (s : S) : S :=
  fold_left (fun s i => f i s) (seq 0 n) s.

(** number of [True] in a boolean vector / of indices with a property *)
Definition count_true (l : list bool) : nat := count_occ bool_dec l true.

Definition count_if (p : nat -> bool) (n : nat) : nat :=
  length (filter p (seq 0 n)).

Fixpoint sum_nat (l : list nat) : nat :=
  match l with [] => 0 | x :: l' => x + sum_nat l' end.

(** [np.bincount(l, minlength=m)] *)
Definition bincount (l : list nat) (m : nat) : list nat :=
  map (fun x => count_occ Nat.eq_dec l x)
      (seq 0 (Nat.max m (fold_right (fun x a => Nat.max (S x) a) 0 l))).

(** Python's index normalisation for an axis of length [n] *)
Definition py_norm (n : nat) (z : Z) : nat :=
  Z.to_nat (if (z <? 0)%Z then (z + Z.of_nat n)%Z else z).

(** fancy indexing [l[ks]] with in-range indices *)
Definition take {A} (d : A) (l : list A) (ks : list nat) : list A :=
  map (fun k => nth k l d) ks.

(** slicing [l[a:b]] for [0 <= a <= b] *)
Definition slice {A} (l : list A) (a b : nat) : list A := firstn (b - a) (skipn a l).

(* ------------------------------------------------------------------ *)
(** ** Facts *)

Lemma for_0 {S} (f : nat -> S -> S) s : for_ 0 f s = s.
Proof. reflexivity. Qed.

Lemma for_S {S} n (f : nat -> S -> S) s : for_ (Datatypes.S n) f s = f n (for_ n f s).
Proof.
  unfold for_. rewrite seq_S, fold_left_app. reflexivity.
Qed.

Lemma for_ind {S} (P : nat -> S -> Prop) n (f : nat -> S -> S) s :
  P 0 s -> (forall i s', i < n -> P i s' -> P (Datatypes.S i) (f i s')) ->
  P n (for_ n f s).
Proof.
  intros H0 Hs. revert Hs. induction n as [|n IH]; intros Hs; [assumption|].
  rewrite for_S. apply Hs; [lia|]. apply IH. intros i s' Hi. apply Hs. lia.
Qed.

Lemma eq2_refl {V} (A : arr2 V) : eq2 A A.
Proof. repeat split; auto. Qed.
Lemma eq2_sym {V} (A B : arr2 V) : eq2 A B -> eq2 B A.
Proof.
  intros (Hr & Hc & H); repeat split; auto.
  intros i j Hi Hj. symmetry; apply H; congruence.
Qed.
Lemma eq2_trans {V} (A B C : arr2 V) : eq2 A B -> eq2 B C -> eq2 A C.
Proof.
  intros (Hr & Hc & H) (Hr' & Hc' & H'); repeat split; try congruence.
  intros i j Hi Hj. rewrite H by auto. apply H'; congruence.
Qed.

Lemma rowl_length {V} (A : arr2 V) i : length (rowl A i) = ncol A.
Proof. unfold rowl. now rewrite map_length, seq_length. Qed.

Lemma rowl_nth {V} (A : arr2 V) i j d : j < ncol A -> nth j (rowl A i) d = at2 A i j.
Proof.
  intros H. unfold rowl.
  rewrite (nth_indep _ d (at2 A i 0)) by now rewrite map_length, seq_length.
  rewrite map_nth. now rewrite seq_nth.
Qed.

Lemma coll_length {V} (A : arr2 V) i : length (coll A i) = nrow A.
Proof. unfold coll. now rewrite map_length, seq_length. Qed.

Lemma coll_nth {V} (A : arr2 V) i j d : j < nrow A -> nth j (coll A i) d = at2 A j i.
Proof.
  intros H. unfold coll.
  rewrite (nth_indep _ d ((fun i0 => at2 A i0 i) 0)) by now rewrite map_length, seq_length.
  rewrite (map_nth (fun i0 => at2 A i0 i)). now rewrite seq_nth.
Qed.

Lemma sum_nat_app l1 l2 : sum_nat (l1 ++ l2) = sum_nat l1 + sum_nat l2.
Proof. induction l1; simpl; lia. Qed.

Lemma sum_nat_map_add {A} (f g : A -> nat) l :
  sum_nat (map (fun x => f x + g x) l) = sum_nat (map f l) + sum_nat (map g l).
Proof. induction l; simpl; lia. Qed.

Lemma sum_nat_zero {A} (f : A -> nat) l :
  (forall x, In x l -> f x = 0) -> sum_nat (map f l) = 0.
Proof. induction l; simpl; intros H; [reflexivity|]. rewrite H, IHl; auto. Qed.

Lemma sum_nat_perm l1 l2 : Permutation l1 l2 -> sum_nat l1 = sum_nat l2.
Proof. induction 1; simpl; lia. Qed.

Lemma sum_nat_const {A} (c : nat) (l : list A) : sum_nat (map (fun _ => c) l) = length l * c.
Proof. induction l; simpl; lia. Qed.

Lemma bincount_fold_le l x : In x l ->
  S x <= fold_right (fun x a => Nat.max (S x) a) 0 l.
Proof.
  induction l as [|y l IH]; intros H; [contradiction|]. cbn [fold_right].
  destruct H as [->|H]; [apply Nat.le_max_l|]. specialize (IH H).
  etransitivity; [exact IH | apply Nat.le_max_r].
Qed.

Lemma bincount_fold_bound l m : (forall x, In x l -> x < m) ->
  fold_right (fun x a => Nat.max (S x) a) 0 l <= m.
Proof.
  induction l as [|y l IH]; intros H; cbn [fold_right]; [lia|].
  apply Nat.max_lub.
  - apply H. now left.
  - apply IH. intros; apply H; now right.
Qed.

(** in-range indices: the histogram has exactly [m] bins *)
Lemma bincount_eq l m : (forall x, In x l -> x < m) ->
  bincount l m = map (fun x => count_occ Nat.eq_dec l x) (seq 0 m).
Proof.
  intros H. unfold bincount. rewrite Nat.max_l; [reflexivity|].
  now apply bincount_fold_bound.
Qed.

Lemma bincount_length l m : (forall x, In x l -> x < m) -> length (bincount l m) = m.
Proof. intros H. rewrite bincount_eq by assumption. now rewrite map_length, seq_length. Qed.

Lemma bincount_nth l m x : (forall x, In x l -> x < m) -> x < m ->
  nth x (bincount l m) 0 = count_occ Nat.eq_dec l x.
Proof.
  intros H Hx. rewrite bincount_eq by assumption.
  rewrite (nth_indep _ 0 (count_occ Nat.eq_dec l 0)) by now rewrite map_length, seq_length.
  rewrite (map_nth (fun x => count_occ Nat.eq_dec l x)). now rewrite seq_nth.
Qed.

Lemma sum_indicator m y : y < m ->
  sum_nat (map (fun x => if Nat.eq_dec y x then 1 else 0) (seq 0 m)) = 1.
Proof.
  intros H.
  assert (G : forall n a, a <= y < a + n ->
      sum_nat (map (fun x => if Nat.eq_dec y x then 1 else 0) (seq a n)) = 1).
  { induction n as [|n IH]; intros a Ha; [lia|]. simpl.
    destruct (Nat.eq_dec y a) as [->|E].
    - rewrite sum_nat_zero; [reflexivity|].
      intros x Hx. apply in_seq in Hx. destruct (Nat.eq_dec a x); lia.
    - rewrite IH by lia. reflexivity. }
  apply G. lia.
Qed.

Lemma sum_count_occ l m : (forall x, In x l -> x < m) ->
  sum_nat (map (fun x => count_occ Nat.eq_dec l x) (seq 0 m)) = length l.
Proof.
  induction l as [|y l IH]; intros H.
  - simpl. rewrite sum_nat_zero; auto.
  - simpl.
    rewrite (map_ext _ (fun x => (if Nat.eq_dec y x then 1 else 0)
                                 + count_occ Nat.eq_dec l x)).
    + rewrite (sum_nat_map_add (fun x => if Nat.eq_dec y x then 1 else 0)
                               (fun x => count_occ Nat.eq_dec l x)).
      rewrite sum_indicator by (apply H; now left).
      rewrite IH; [reflexivity|]. intros; apply H; now right.
    + intros x. destruct (Nat.eq_dec y x); reflexivity.
Qed.

Lemma bincount_sum l m : (forall x, In x l -> x < m) -> sum_nat (bincount l m) = length l.
Proof. intros H. rewrite bincount_eq by assumption. now apply sum_count_occ. Qed.

Lemma count_if_le p n : count_if p n <= n.
Proof.
  unfold count_if.
  assert (G : forall l : list nat, length (filter p l) <= length l).
  { induction l as [|a l IH]; simpl; [lia|]. destruct (p a); simpl; lia. }
  specialize (G (seq 0 n)). now rewrite seq_length in G.
Qed.

Lemma count_if_ext p q n : (forall i, i < n -> p i = q i) -> count_if p n = count_if q n.
Proof.
  intros H. unfold count_if. f_equal. apply filter_ext_in.
  intros a Ha. apply in_seq in Ha. apply H. lia.
Qed.

Lemma count_if_S p n : count_if p (S n) = count_if p n + (if p n then 1 else 0).
Proof.
  unfold count_if. rewrite seq_S, filter_app, app_length. simpl.
  destruct (p n); reflexivity.
Qed.

Lemma count_true_map {A} (p : A -> bool) l :
  count_true (map p l) = length (filter p l).
Proof.
  induction l as [|a l IH]; simpl; [reflexivity|].
  unfold count_true in *. simpl. destruct (p a); simpl; rewrite IH; reflexivity.
Qed.

Lemma count_if_mono p q n : (forall i, i < n -> p i = true -> q i = true) ->
  count_if p n <= count_if q n.
Proof.
  induction n as [|n IH]; intros H; [reflexivity|].
  rewrite !count_if_S. assert (count_if p n <= count_if q n) by auto.
  specialize (H n (Nat.lt_succ_diag_r n)).
  destruct (p n), (q n); try lia; specialize (H eq_refl); discriminate.
Qed.

Lemma count_if_or_and p q n :
  count_if (fun i => p i || q i) n + count_if (fun i => p i && q i) n
  = count_if p n + count_if q n.
Proof.
  induction n as [|n IH]; [reflexivity|].
  rewrite !count_if_S. destruct (p n), (q n); simpl; lia.
Qed.

Lemma count_if_neg p n : count_if (fun i => negb (p i)) n + count_if p n = n.
Proof.
  induction n as [|n IH]; [reflexivity|].
  rewrite !count_if_S. destruct (p n); simpl; lia.
Qed.

Lemma count_if_false n : count_if (fun _ => false) n = 0.
Proof. induction n as [|n IH]; [reflexivity|]. rewrite count_if_S, IH. reflexivity. Qed.

Lemma count_if_eq1 n a : a < n -> count_if (fun i => i =? a) n = 1.
Proof.
  induction n as [|n IH]; intros H; [lia|].
  rewrite count_if_S. destruct (Nat.eq_dec a n) as [->|E].
  - rewrite Nat.eqb_refl. rewrite (count_if_ext _ (fun _ => false)).
    + now rewrite count_if_false.
    + intros i Hi. apply Nat.eqb_neq. lia.
  - rewrite IH by lia. assert (n =? a = false) as -> by (apply Nat.eqb_neq; lia). reflexivity.
Qed.

(** excluding two different indices leaves at most [n-2] *)
Lemma count_if_excl2 p n a b : a < n -> b < n -> a <> b ->
  p a = false -> p b = false -> count_if p n + 2 <= n.
Proof.
  intros Ha Hb Hab Pa Pb.
  pose proof (count_if_neg p n) as Hn.
  assert (count_if (fun i => (i =? a) || (i =? b)) n <= count_if (fun i => negb (p i)) n) as Hm.
  { apply count_if_mono. intros i Hi H. apply orb_true_iff in H as [H|H];
      apply Nat.eqb_eq in H; subst; now rewrite ?Pa, ?Pb. }
  pose proof (count_if_or_and (fun i => i =? a) (fun i => i =? b) n) as Ho.
  rewrite !count_if_eq1 in Ho by assumption.
  rewrite (count_if_ext (fun i => (i =? a) && (i =? b)) (fun _ => false)) in Ho.
  - rewrite count_if_false in Ho. lia.
  - intros i Hi. destruct (Nat.eqb_spec i a), (Nat.eqb_spec i b); simpl; auto; congruence.
Qed.

Lemma take_length {A} (d : A) l ks : length (take d l ks) = length ks.
Proof. unfold take. now rewrite map_length. Qed.

Lemma nth_map_seq {A} (f : nat -> A) n i d : i < n -> nth i (map f (seq 0 n)) d = f i.
Proof.
  intros H. rewrite (nth_indep _ d (f 0)) by now rewrite map_length, seq_length.
  rewrite map_nth. now rewrite seq_nth.
Qed.

Lemma take_seq_prefix {A} (d : A) l k : k <= length l -> take d l (seq 0 k) = firstn k l.
Proof.
  intros H. unfold take.
  apply (nth_ext _ _ d d).
  - rewrite map_length, seq_length, firstn_length. lia.
  - intros i Hi. rewrite map_length, seq_length in Hi.
    rewrite nth_map_seq by assumption.
    rewrite <- (firstn_skipn k l) at 1. rewrite app_nth1; [reflexivity|].
    rewrite firstn_length. lia.
Qed.

Lemma take_seq_suffix {A} (d : A) l a k : a + k = length l -> take d l (seq a k) = skipn a l.
Proof.
  intros H. unfold take.
  apply (nth_ext _ _ d d).
  - rewrite map_length, seq_length, skipn_length. lia.
  - intros i Hi. rewrite map_length, seq_length in Hi.
    rewrite (nth_indep _ d ((fun k => nth k l d) 0)) by (now rewrite map_length, seq_length).
    rewrite (map_nth (fun k => nth k l d)), seq_nth by assumption.
    rewrite <- (firstn_skipn a l) at 1. rewrite app_nth2; rewrite firstn_length; [|lia].
    f_equal. lia.
Qed.

Lemma perm_seq_length p n : Permutation p (seq 0 n) -> length p = n.
Proof. intros H. apply Permutation_length in H. now rewrite seq_length in H. Qed.
Lemma perm_seq_NoDup p n : Permutation p (seq 0 n) -> NoDup p.
Proof. intros H. eapply Permutation_NoDup; [symmetry; exact H | apply seq_NoDup]. Qed.
Lemma perm_seq_In p n x : Permutation p (seq 0 n) -> (In x p <-> x < n).
Proof.
  intros H. split; intros G.
  - eapply Permutation_in in G; [|exact H]. apply in_seq in G. lia.
  - eapply Permutation_in; [symmetry; exact H|]. apply in_seq. lia.
Qed.
Lemma perm_seq_nth p n i : Permutation p (seq 0 n) -> i < n -> nth i p 0 < n.
Proof.
  intros H Hi. apply (perm_seq_In p n (nth i p 0) H). apply nth_In.
  now rewrite (perm_seq_length _ _ H).
Qed.
