(** Final theorems: how the objects to hold out are given (C162). *)
From Coq Require Import String.
From Coq Require Import ZArith Reals Lra Lia List Arith Bool.
From Verif Require Import Py Num NumT Arr S_Centering M_LS M_Centering M_MPDist M_Holdout S_Holdout
  P_ApproxDSL P_HubnessReal P_Centering P_Holdout.
Import ListNotations.
Local Open Scope nat_scope.

(** ** C162 *)
(** Two masks that both mark some objects and leave some unmarked lead to the same
    results, whichever objects they mark: those of holding out objects 0 and 1. *)
Theorem C162_masks :
  forall (V : Type) (N : Num V) vsum vpow vexp vln part vcdf vsf vgam m h,
    marks_some m -> (exists m', h = HMask m' /\ marks_some m') \/ h = HInts [0%Z; 1%Z] ->
    (forall (D : arr2 V) k metric cpu jobs r,
       local_scaling_h vexp part D k metric (HMask m) cpu jobs r <-> local_scaling_h vexp part D k metric h cpu jobs r) /\
    (forall (D : arr2 V) k metric cpu jobs r,
       nicdm_h vsum vexp vln part D k metric (HMask m) cpu jobs r <-> nicdm_h vsum vexp vln part D k metric h cpu jobs r) /\
    (forall (X : arr2 V) metric, centering_h vsum X metric (HMask m) = centering_h vsum X metric h) /\
    (forall (X : arr2 V) metric gamma,
       weighted_centering_h vsum vpow X metric gamma (HMask m) = weighted_centering_h vsum vpow X metric gamma h) /\
    (forall (D : arr2 V) metric s idx, gaussi_h vsum vcdf vsf D metric s (HMask m) idx = gaussi_h vsum vcdf vsf D metric s h idx) /\
    (forall (D : arr2 V) metric, gammai_h vsum vgam D metric (HMask m) = gammai_h vsum vgam D metric h).
Proof.
  intros V N vsum vpow vexp vln part vcdf vsf vgam m h Hm Hh.
  assert (A : forall n, reads_alike n (HMask m) h).
  { intro n. destruct Hh as [[m' [-> Hm']]| ->]; [now apply mask_mask|].
    apply mask_reads; [exact Hm|]. intros i Hi. cbn. lia. }
  repeat apply conj; intros.
  - apply same_ls, A.
  - apply same_nicdm, A.
  - apply same_cent, A.
  - apply same_wcent, A.
  - apply same_gaussi, A.
  - apply same_gammai, A.
Qed.

(** Non-negative positions are understood: the functions are those of the properties
    on local scaling, NICDM, centering and Mutual Proximity. *)
Theorem C162_positions :
  forall (V : Type) (N : Num V) vsum vpow vexp vln part vcdf vsf vgam (t : option (list nat)),
    let h := match t with None => HNone | Some l => HInts (map Z.of_nat l) end in
    (forall (D : arr2 V) k metric cpu jobs r,
       local_scaling_h vexp part D k metric h cpu jobs r <-> local_scaling vexp part D k metric t cpu jobs r) /\
    (forall (D : arr2 V) k metric cpu jobs r,
       nicdm_h vsum vexp vln part D k metric h cpu jobs r <-> nicdm vexp vln vsum part D k metric t cpu jobs r) /\
    (forall (X : arr2 V) metric, centering_h vsum X metric h = centering vsum X metric t) /\
    (forall (X : arr2 V) metric gamma,
       weighted_centering_h vsum vpow X metric gamma h = weighted_centering vsum vpow X metric gamma t) /\
    (forall (D : arr2 V) metric s idx,
       gaussi_h vsum vcdf vsf D metric s h idx = gaussi vsum vcdf vsf D metric s (option_map (map Z.of_nat) t) idx) /\
    (forall (D : arr2 V) metric, gammai_h vsum vgam D metric h = gammai vsum vgam D metric (option_map (map Z.of_nat) t)).
Proof.
  intros V N vsum vpow vexp vln part vcdf vsf vgam t h.
  assert (E : held_positions h = t).
  { destruct t as [l|]; [|reflexivity]. unfold h, held_positions. cbn. f_equal.
    induction l as [|a l IH]; [reflexivity|]. cbn [map filter].
    replace (0 <=? Z.of_nat a)%Z with true by (symmetry; apply Z.leb_le; lia).
    cbn [map]. rewrite IH, Nat2Z.id. reflexivity. }
  assert (E' : held_values h = option_map (map Z.of_nat) t) by (destruct t; reflexivity).
  unfold local_scaling_h, nicdm_h, centering_h, weighted_centering_h, gaussi_h, gammai_h.
  rewrite E, E'. repeat apply conj; intros; reflexivity.
Qed.

(** A mask that marks nothing holds out object 0, and one that marks everything
    holds out object 1 only. *)
Theorem C162_uniform_masks :
  forall (V : Type) (N : Num V) vsum vpow vexp vln part vcdf vsf vgam (b : bool) m,
    m <> [] -> (forall c, In c m -> c = b) ->
    let h := HInts [if b then 1%Z else 0%Z] in
    (forall (D : arr2 V) k metric cpu jobs r,
       local_scaling_h vexp part D k metric (HMask m) cpu jobs r <-> local_scaling_h vexp part D k metric h cpu jobs r) /\
    (forall (D : arr2 V) k metric cpu jobs r,
       nicdm_h vsum vexp vln part D k metric (HMask m) cpu jobs r <-> nicdm_h vsum vexp vln part D k metric h cpu jobs r) /\
    (forall (X : arr2 V) metric, centering_h vsum X metric (HMask m) = centering_h vsum X metric h) /\
    (forall (X : arr2 V) metric gamma,
       weighted_centering_h vsum vpow X metric gamma (HMask m) = weighted_centering_h vsum vpow X metric gamma h) /\
    (forall (D : arr2 V) metric s idx, gaussi_h vsum vcdf vsf D metric s (HMask m) idx = gaussi_h vsum vcdf vsf D metric s h idx) /\
    (forall (D : arr2 V) metric, gammai_h vsum vgam D metric (HMask m) = gammai_h vsum vgam D metric h).
Proof.
  intros V N vsum vpow vexp vln part vcdf vsf vgam b m Hm Hb h.
  assert (A : forall n, reads_alike n (HMask m) h).
  { intro n. eexists _, _. split; [reflexivity|]. split; [reflexivity|]. intros i Hi. rewrite in_map_iff. split.
    - intros [c [E K]]. rewrite (Hb c K) in E. left. exact E.
    - intros [E|[]]. destruct m as [|c m]; [congruence|]. exists c. split; [|now left].
      rewrite (Hb c (or_introl eq_refl)). exact E. }
  repeat apply conj; intros.
  - apply same_ls, A.
  - apply same_nicdm, A.
  - apply same_cent, A.
  - apply same_wcent, A.
  - apply same_gaussi, A.
  - apply same_gammai, A.
Qed.

(** Of an array of integers only the values 0 .. n-1 count, in any order and any
    number of times: a negative index holds nothing out. *)
Theorem C162_indices :
  forall (V : Type) (N : Num V) vsum vpow vexp vln part vcdf vsf vgam n l l',
    (forall z, (0 <= z < Z.of_nat n)%Z -> (In z l <-> In z l')) ->
    (forall (D : arr2 V) k metric cpu jobs r, nrow D = n ->
       local_scaling_h vexp part D k metric (HInts l) cpu jobs r <-> local_scaling_h vexp part D k metric (HInts l') cpu jobs r) /\
    (forall (D : arr2 V) k metric cpu jobs r, nrow D = n ->
       nicdm_h vsum vexp vln part D k metric (HInts l) cpu jobs r <-> nicdm_h vsum vexp vln part D k metric (HInts l') cpu jobs r) /\
    (forall (X : arr2 V) metric, nrow X = n -> centering_h vsum X metric (HInts l) = centering_h vsum X metric (HInts l')) /\
    (forall (X : arr2 V) metric gamma, nrow X = n ->
       weighted_centering_h vsum vpow X metric gamma (HInts l) = weighted_centering_h vsum vpow X metric gamma (HInts l')) /\
    (forall (D : arr2 V) metric s idx, nrow D = n ->
       gaussi_h vsum vcdf vsf D metric s (HInts l) idx = gaussi_h vsum vcdf vsf D metric s (HInts l') idx) /\
    (forall (D : arr2 V) metric, nrow D = n -> gammai_h vsum vgam D metric (HInts l) = gammai_h vsum vgam D metric (HInts l')).
Proof.
  intros V N vsum vpow vexp vln part vcdf vsf vgam n l l' H.
  assert (A : reads_alike n (HInts l) (HInts l')).
  { exists l, l'. split; [reflexivity|]. split; [reflexivity|]. intros i Hi. apply H. lia. }
  repeat apply conj; intros; subst n.
  - apply same_ls, A.
  - apply same_nicdm, A.
  - apply same_cent, A.
  - apply same_wcent, A.
  - apply same_gaussi, A.
  - apply same_gammai, A.
Qed.

(** two results differ in the shifted value of some object *)
Definition differ (r r' : result (arr2 xr)) : Prop :=
  exists A B i, r = Ok A /\ r' = Ok B /\ i < nrow A /\ nrow B = nrow A /\ ncol A = 1 /\ ncol B = 1 /\
    at2 A i 0 <> at2 B i 0.

Lemma separated n h h' l l' x : held_values h = Some l -> held_values h' = Some l' -> x < n ->
  ~ In (Z.of_nat x) l -> In (Z.of_nat x) l' ->
  let X := rmat n 1 (fun i _ => if i =? x then 1%R else 0%R) in
  differ (centering_h xsum X "vector" h) (centering_h xsum X "vector" h').
Proof.
  intros E E' Hx Hl Hl' X. unfold differ, centering_h, centering. cbn [String.eqb Ascii.eqb orb Bool.eqb].
  eexists _, _, x. split; [reflexivity|]. split; [reflexivity|]. cbn [nrow ncol at2 X rmat].
  do 4 (split; [first [exact Hx|reflexivity]|]).
  rewrite Nat.eqb_refl, !train_same, E, E'.
  set (T := train_rows n (Some l)). set (T' := train_rows n (Some l')).
  assert (HT : In x T) by (apply train_in; split; assumption).
  assert (HT' : ~ In x T') by (intro K; apply train_in in K; tauto).
  unfold rows_mean, X, rmat. cbn [at2 nrow ncol].
  rewrite (xsum_reals (fun i => if i =? x then 1%R else 0%R) T), (xsum_reals (fun i => if i =? x then 1%R else 0%R) T').
  assert (S1 : (1 <= rsum (map (fun i => if (i =? x) then 1%R else 0%R) T))%R).
  { apply rsum_in_le.
    - intros y Hy. apply in_map_iff in Hy. destruct Hy as [i [<- _]]. destruct (i =? x); lra.
    - apply in_map_iff. exists x. rewrite Nat.eqb_refl. split; [reflexivity|exact HT]. }
  assert (S0 : rsum (map (fun i => if (i =? x) then 1%R else 0%R) T') = 0%R).
  { clear - HT'. induction T' as [|a T' IH]; [reflexivity|]. cbn in *. destruct (Nat.eqb_spec a x); [tauto|].
    fold (rsum (map (fun i => if i =? x then 1%R else 0%R) T')). rewrite IH by tauto. lra. }
  rewrite S0. set (s := rsum (map (fun i => if i =? x then 1%R else 0%R) T)) in *.
  assert (P : (0 < INR (length T))%R) by (apply lt_0_INR; destruct T; [destruct HT|cbn; lia]).
  unfold nofnat. cbn [ndiv nsub nofZ Num_xr xdiv]. rewrite <- !INR_IZR_INZ.
  destruct (Req_EM_T (INR (length T)) 0) as [Z|_]; [lra|].
  assert (Q : (0 < s / INR (length T))%R) by (apply Rdiv_lt_0_compat; lra).
  destruct (Req_EM_T (INR (length T')) 0).
  - cbn. unfold xinf_s, rsgn. repeat (destruct (Rlt_dec _ _); try lra); cbn; discriminate.
  - cbn. intro K. injection K as K. unfold Rdiv in *. rewrite Rmult_0_l in K.
    change (1 + - (s * / INR (length T)) = 1 + - 0)%R in K. lra.
Qed.

Lemma differ_sym r r' : differ r r' -> differ r' r.
Proof.
  intros (A & B & i & E & E' & L & R & C & C' & H). exists B, A, i. repeat split; try congruence; lia.
Qed.

(** the mean is taken over the wrong objects, unless the mask marks exactly
    objects 0 and 1: there is data for which the result is not the one for the
    positions of the marked objects *)
Theorem C162_mask_wrong :
  forall m, marks_some m -> ~ (forall i, i < length m -> (nth i m false = true <-> i = 0 \/ i = 1)) ->
    exists x : nat -> nat -> R,
      let X := rmat (length m) 1 x in
      differ (centering_h xsum X "vector" (HMask m)) (centering_h xsum X "vector" (HInts (marked m))).
Proof.
  intros m [T F] Hm.
  assert (D : forall i, i < length m -> (In (Z.of_nat i) (marked m) <-> nth i m false = true)).
  { intros i Hi. unfold marked. rewrite in_map_iff. split.
    - intros [j [E K]]. apply filter_In in K. replace i with j by lia. apply K.
    - intro K. exists i. split; [reflexivity|]. apply filter_In. split; [apply in_seq; lia|exact K]. }
  assert (G : forall i, i < length m ->
    (In (Z.of_nat i) (map (fun b : bool => if b then 1%Z else 0%Z) m) <-> i = 0 \/ i = 1)).
  { intros i Hi. rewrite in_map_iff. split; [intros [[] [E _]]; lia|].
    intros [->| ->]; [exists false|exists true]; auto. }
  assert (W : exists i, i < length m /\ (if nth i m false then ~ (i = 0 \/ i = 1) else (i = 0 \/ i = 1))).
  { destruct (existsb (fun i => negb (Bool.eqb (nth i m false) (i <? 2))) (seq 0 (length m))) eqn:E.
    - apply existsb_exists in E. destruct E as [i [Hi E]]. apply in_seq in Hi. exists i. split; [lia|].
      destruct (nth i m false), (Nat.ltb_spec i 2); cbn in E; try discriminate; lia.
    - exfalso. apply Hm. intros i Hi.
      assert (K : negb (Bool.eqb (nth i m false) (i <? 2)) = false).
      { destruct (negb (Bool.eqb (nth i m false) (i <? 2))) eqn:K; [|reflexivity].
        rewrite <- E. symmetry. apply existsb_exists. exists i. split; [apply in_seq; lia|exact K]. }
      destruct (nth i m false), (Nat.ltb_spec i 2); cbn in K; try discriminate; split; intro; try reflexivity; try discriminate; lia. }
  destruct W as [i [Hi W]]. destruct (nth i m false) eqn:E.
  - eexists. eapply (separated (length m) (HMask m) (HInts (marked m)) _ _ i); [reflexivity|reflexivity|exact Hi| |].
    + rewrite G by exact Hi. exact W.
    + apply D; assumption.
  - eexists. apply differ_sym.
    eapply (separated (length m) (HInts (marked m)) (HMask m) _ _ i); [reflexivity|reflexivity|exact Hi| |].
    + rewrite D by exact Hi. congruence.
    + apply G; assumption.
Qed.

(** an index counted from the end does not hold out the object it stands for
    elsewhere in Python *)
Theorem C162_negative_wrong :
  forall n z, (- Z.of_nat n <= z < 0)%Z ->
    exists x : nat -> nat -> R,
      let X := rmat n 1 x in
      differ (centering_h xsum X "vector" (HInts [z])) (centering_h xsum X "vector" (HInts [python_position n z])).
Proof.
  intros n z H. eexists.
  apply (separated n (HInts [z]) (HInts [python_position n z]) [z] [python_position n z] (Z.to_nat (z + Z.of_nat n)));
    [reflexivity|reflexivity|lia| |].
  - cbn. lia.
  - unfold python_position. destruct (Z.ltb_spec z 0); cbn; lia.
Qed.

(** non-vacuity: the last of four objects is marked, or given as -1 *)
Example C162_case :
  marks_some [false; false; false; true] /\
  ~ (forall i, i < 4 -> (nth i [false; false; false; true] false = true <-> i = 0 \/ i = 1)) /\
  marked [false; false; false; true] = [3%Z] /\ python_position 4 (-1) = 3%Z /\
  ls_train 4 (held_positions (HMask [false; false; false; true])) = [2; 3] /\
  ls_train 4 (held_positions (HMask [false; false; false; false])) = [1; 2; 3] /\
  ls_train 4 (held_positions (HInts [-1]%Z)) = [0; 1; 2; 3] /\
  ls_train 4 (held_positions (HInts [3]%Z)) = [0; 1; 2].
Proof.
  split; [split; cbn; auto|]. split.
  - intro H. specialize (H 0 ltac:(lia)). cbn in H. destruct H as [_ H]. specialize (H (or_introl eq_refl)). discriminate.
  - repeat split; reflexivity.
Qed.

Print Assumptions C162_masks.
Print Assumptions C162_uniform_masks.
Print Assumptions C162_positions.
Print Assumptions C162_indices.
Print Assumptions C162_mask_wrong.
Print Assumptions C162_negative_wrong.
