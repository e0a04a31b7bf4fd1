(** Properties C95-C99: intrinsic dimension (intrinsic_dimension.py). *)
From Coq Require Import String.
From Coq Require Import ZArith Reals Lra Lia Psatz List Arith Bool Permutation Sorting.Sorted.
From Verif Require Import Py Num NumT Arr Sort S_Approx S_Centering S_ID M_GK M_MPDist M_ID.
From Verif Require Import P_GK3 P_Vec P_ApproxMPG P_MPDist2 P_ID.
Import ListNotations.
Local Open Scope R_scope.

(** ** C99: which calls are accepted *)
Lemma id_valid_or n k1 k2 e metric trafo :
  (known_estimator e /\ (1 <= k1 <= k2)%Z /\ (k2 < Z.of_nat n)%Z /\ metric = "vector"%string /\ trafo_ok trafo) \/
  (exists ex, (ex = ValueError \/ ex = NotImplementedError) /\
     forall V (N : Num V) (vsum : list V -> V) vln sort order X mem, nrow X = n ->
     intrinsic_dimension vsum vln sort order X k1 k2 e metric trafo mem = Raise ex).
Proof.
  unfold intrinsic_dimension.
  destruct (String.eqb_spec e "levina"%string) as [E1|E1], (String.eqb_spec e "mackay"%string) as [E2|E2];
    try (right; exists ValueError; split; [now left|]; intros; reflexivity); cbn [orb negb guard bind];
    (destruct ((k1 <? 1)%Z || (k2 <? k1)%Z || (Z.of_nat n <=? k2)%Z) eqn:G;
     [right; exists ValueError; split; [now left|]; intros; subst; rewrite G; reflexivity|]);
    (destruct (String.eqb_spec metric "vector"%string) as [->|E3];
     [|right; destruct (String.eqb metric "distance" || String.eqb metric "similarity") eqn:M;
       eexists; (split; [|intros; subst; rewrite G; reflexivity]); auto]);
    (destruct trafo as [t|]; [|left; unfold known_estimator, trafo_ok; repeat split; auto; lia]);
    (destruct (String.eqb_spec t "var"%string) as [->|E4]; [left; unfold known_estimator, trafo_ok; repeat split; auto; lia|]);
    (destruct (String.eqb_spec t "std"%string) as [->|E5]; [left; unfold known_estimator, trafo_ok; repeat split; auto; lia|]);
    right; exists ValueError; (split; [now left|]); intros; subst; rewrite G; cbn [bind id_trafo];
    destruct (String.eqb_spec t "var"%string); try contradiction; destruct (String.eqb_spec t "std"%string); try contradiction; reflexivity.
Qed.
Theorem C99_accepted_calls :
  forall (V : Type) (N : Num V) (vsum : list V -> V) (vln : V -> V) (sort : list V -> list V)
         (order : list nat) (X : arr2 V) (k1 k2 : Z) (estimator metric : string) (trafo : option string) (mem : Z),
    ((exists v, intrinsic_dimension vsum vln sort order X k1 k2 estimator metric trafo mem = Ok v) <->
     (estimator = "levina" \/ estimator = "mackay")%string /\
     (0 < k1 <= k2)%Z /\ (k2 < Z.of_nat (nrow X))%Z /\
     metric = "vector"%string /\
     (trafo = None \/ trafo = Some "std" \/ trafo = Some "var")%string) /\
    (forall e, intrinsic_dimension vsum vln sort order X k1 k2 estimator metric trafo mem = Raise e ->
       e = ValueError \/ e = NotImplementedError) /\
    (** the documented metric 'distance' is never accepted *)
    (forall v, intrinsic_dimension vsum vln sort order X k1 k2 estimator "distance" trafo mem <> Ok v).
Proof.
  intros. split; [|split].
  - split.
    + intros (v & H). destruct (id_valid_or (nrow X) k1 k2 estimator metric trafo) as [(A & B & C & D & E)|(ex & _ & E)].
      * unfold known_estimator, trafo_ok in *. repeat split; auto; lia.
      * rewrite (E V N) in H by reflexivity. discriminate.
    + intros (A & B & C & -> & E). unfold intrinsic_dimension.
      assert (G1 : negb (String.eqb estimator "levina" || String.eqb estimator "mackay") = false) by (destruct A as [->| ->]; reflexivity).
      assert (G2 : ((k1 <? 1)%Z || (k2 <? k1)%Z || (Z.of_nat (nrow X) <=? k2)%Z) = false) by lia.
      rewrite G1, G2. cbn [guard bind]. rewrite String.eqb_refl.
      destruct E as [->|[->| ->]]; cbn; eexists; reflexivity.
  - intros e H. destruct (id_valid_or (nrow X) k1 k2 estimator metric trafo) as [(A & B & C & D & E)|(ex & K & E)].
    + exfalso. subst metric. unfold intrinsic_dimension in H.
      assert (G1 : negb (String.eqb estimator "levina" || String.eqb estimator "mackay") = false) by (destruct A as [->| ->]; reflexivity).
      assert (G2 : ((k1 <? 1)%Z || (k2 <? k1)%Z || (Z.of_nat (nrow X) <=? k2)%Z) = false) by lia.
      rewrite G1, G2 in H. cbn [guard bind] in H. rewrite String.eqb_refl in H.
      destruct E as [->|[->| ->]]; cbn in H; discriminate.
    + rewrite (E V N) in H by reflexivity. injection H as <-. exact K.
  - intros v H. destruct (id_valid_or (nrow X) k1 k2 estimator "distance" trafo) as [(_ & _ & _ & C & _)|(ex & _ & E)].
    + discriminate C.
    + rewrite (E V N) in H by reflexivity. discriminate.
Qed.

(** ** C95 *)
Theorem C95_zero_distances :
  forall sort order (X : arr2 xr) n m x T k1 k2 e trafo mem,
    sort_ok sort -> Permutation order (seq 0 n) -> fin2 X n m x -> trafo_ok trafo -> known_estimator e ->
    (3 <= k1 <= k2)%nat -> (k2 < n)%nat ->
    nearest_dists n m (transformed trafo n x) T ->
    let T' i := map eff (T i) in
    (forall i k, (i < n)%nat -> (k1 <= k <= k2)%nat -> log_ratios (T' i) k <> 0) ->
    (forall k, (k1 <= k <= k2)%nat -> rmean (map (fun i => / local_dim (T' i) k) (seq 0 n)) <> 0) ->
    intrinsic_dimension xsum xln sort order X (Z.of_nat k1) (Z.of_nat k2) e "vector" trafo mem
    = Ok (XFin (estimate e T' n k1 k2)).
Proof.
  intros sort order X n m x T k1 k2 e trafo mem SO P FX Ht He Hk Hn HT T' H HM.
  rewrite (id_core sort order X n m x T k1 k2 e trafo mem) by (auto; lia). f_equal.
  change (fun i k => log_ratios (map eff (T i)) k) with (fun i k => log_ratios (T' i) k).
  destruct He as [->| ->]; unfold estimate; cbn [String.eqb Ascii.eqb Bool.eqb].
  - apply xest_levina_fin; auto; lia.
  - apply xest_mackay_fin; auto; lia.
Qed.
Theorem C95_maximum_likelihood_estimate :
  forall sort order (X : arr2 xr) n m x T k1 k2 e trafo mem,
    sort_ok sort -> Permutation order (seq 0 n) -> fin2 X n m x -> trafo_ok trafo -> known_estimator e ->
    (3 <= k1 <= k2)%nat -> (k2 < n)%nat ->
    nearest_dists n m (transformed trafo n x) T ->
    (** no two objects coincide; no object has its k1 nearest neighbours all at the same distance *)
    (forall i, (i < n)%nat -> 0 < kth_dist (T i) 1 < kth_dist (T i) k1) ->
    intrinsic_dimension xsum xln sort order X (Z.of_nat k1) (Z.of_nat k2) e "vector" trafo mem
    = Ok (XFin (estimate e T n k1 k2)) /\
    0 < estimate e T n k1 k2.
Proof.
  intros sort order X n m x T k1 k2 e trafo mem SO P FX Ht He Hk Hn HT HD.
  assert (LE : forall i, (i < n)%nat -> length (T i) = (n - 1)%nat) by (intros i Hi; exact (nearest_len n m _ T i Hi HT)).
  assert (ID : forall i, (i < n)%nat -> map eff (T i) = T i).
  { intros i Hi. apply map_eff_id. apply ssorted_pos; [apply (HT i Hi)|rewrite LE by assumption; lia|apply HD, Hi]. }
  assert (LP : forall i k, (i < n)%nat -> (k1 <= k <= k2)%nat -> 0 < log_ratios (T i) k).
  { intros i k Hi Hkk. apply (log_ratios_pos (T i) k1 k); [apply (HT i Hi)|lia|rewrite LE by assumption; lia|apply HD, Hi|apply HD, Hi]. }
  assert (DP : forall i k, (i < n)%nat -> (k1 <= k <= k2)%nat -> 0 < local_dim (T i) k).
  { intros i k Hi Hkk. unfold local_dim. apply Rmult_lt_0_compat; [|now apply Rinv_0_lt_compat, LP].
    assert (K : (3 <= k)%nat) by lia. apply le_INR in K. change (INR 3) with (1 + 1 + 1) in K. lra. }
  assert (MP : forall k, (k1 <= k <= k2)%nat -> 0 < rmean (map (fun i => / local_dim (T i) k) (seq 0 n))).
  { intros k Hkk. unfold rmean. apply Rmult_lt_0_compat.
    - apply rsum_pos; [destruct n; [lia|discriminate]|]. intros v Hv. apply in_map_iff in Hv as (i & <- & Hi). apply in_seq in Hi.
      apply Rinv_0_lt_compat, DP; lia.
    - apply Rinv_0_lt_compat. rewrite map_length, seq_length. apply lt_0_INR. lia. }
  split.
  - rewrite (id_core sort order X n m x T k1 k2 e trafo mem) by (auto; lia). f_equal.
    rewrite (xest_ext e _ (fun i k => log_ratios (T i) k)) by (intros i k Hi _; now rewrite ID).
    destruct He as [->| ->]; unfold estimate; cbn [String.eqb Ascii.eqb Bool.eqb].
    + apply xest_levina_fin; try lia. intros i k Hi Hkk. specialize (LP i k Hi Hkk). lra.
    + apply xest_mackay_fin; try lia; [intros i k Hi Hkk; specialize (LP i k Hi Hkk); lra|].
      intros k Hkk. specialize (MP k Hkk). lra.
  - destruct He as [->| ->]; unfold estimate; cbn [String.eqb Ascii.eqb Bool.eqb].
    + unfold levina_estimate, rmean. apply Rmult_lt_0_compat.
      * apply rsum_pos.
        -- destruct n; [lia|]. cbn [seq flat_map]. replace (k2 + 1 - k1)%nat with (S (k2 - k1)) by lia. discriminate.
        -- intros v Hv. apply in_flat_map in Hv as (i & Hi & Hv). apply in_map_iff in Hv as (k & <- & Hkk).
           apply in_seq in Hi, Hkk. apply DP; lia.
      * apply Rinv_0_lt_compat. rewrite (flat_map_len (fun i k => local_dim (T i) k)), !seq_length. apply lt_0_INR. nia.
    + unfold mackay_estimate. set (l := map _ (seq k1 _)). unfold rmean. apply Rmult_lt_0_compat.
      * apply rsum_pos; unfold l.
        -- replace (k2 + 1 - k1)%nat with (S (k2 - k1)) by lia. discriminate.
        -- intros v Hv. apply in_map_iff in Hv as (k & <- & Hkk). apply in_seq in Hkk. apply Rinv_0_lt_compat, MP. lia.
      * apply Rinv_0_lt_compat. unfold l. rewrite map_length, seq_length. apply lt_0_INR. lia.
Qed.

(** ** C96 *)
Section Same.
  Variables (sort sort' : list xr -> list xr) (order order' : list nat) (X X' : arr2 xr) (n m m' : nat) (x x' : nat -> nat -> R).
  Variables (k1 k2 : Z) (e metric : string) (trafo : option string) (mem mem' : Z).
  Hypothesis (SO : sort_ok sort) (SO' : sort_ok sort').
  Hypothesis (P : Permutation order (seq 0 n)) (P' : Permutation order' (seq 0 n)).
  Hypothesis (FX : fin2 X n m x) (FX' : fin2 X' n m' x').
  Lemma same_outcome :
    (trafo_ok trafo -> forall k1 k2, (1 <= k1 <= k2)%nat -> (k2 < n)%nat ->
       xest e (fun i k => log_ratios (map eff (Tof n m (transformed trafo n x) i)) k) n k1 k2
       = xest e (fun i k => log_ratios (map eff (Tof n m' (transformed trafo n x') i)) k) n k1 k2) ->
    intrinsic_dimension xsum xln sort order X k1 k2 e metric trafo mem
    = intrinsic_dimension xsum xln sort' order' X' k1 k2 e metric trafo mem'.
  Proof.
    intros H. destruct (id_valid_or n k1 k2 e metric trafo) as [(A & B & C & -> & E)|(ex & _ & E)].
    - replace k1 with (Z.of_nat (Z.to_nat k1)) by lia. replace k2 with (Z.of_nat (Z.to_nat k2)) by lia.
      rewrite (id_core sort order X n m x _ (Z.to_nat k1) (Z.to_nat k2) e trafo mem SO P FX E A ltac:(lia) ltac:(lia) (Tof_ok n m _)).
      rewrite (id_core sort' order' X' n m' x' _ (Z.to_nat k1) (Z.to_nat k2) e trafo mem' SO' P' FX' E A ltac:(lia) ltac:(lia) (Tof_ok n m' _)).
      f_equal. apply H; auto; lia.
    - rewrite !E; [reflexivity|apply (proj1 FX')|apply (proj1 FX)].
  Qed.
End Same.

(** the order of the objects and the memory threshold do not matter *)
Theorem C96_order_and_memory :
  forall sort sort' order order' (X X' : arr2 xr) n m x s k1 k2 e metric trafo mem mem',
    sort_ok sort -> sort_ok sort' -> Permutation order (seq 0 n) -> Permutation order' (seq 0 n) ->
    fin2 X n m x -> Permutation s (seq 0 n) ->
    fin2 X' n m (fun i => x (nth i s 0%nat)) ->
    intrinsic_dimension xsum xln sort order X k1 k2 e metric trafo mem
    = intrinsic_dimension xsum xln sort' order' X' k1 k2 e metric trafo mem'.
Proof.
  intros sort sort' order order' X X' n m x s k1 k2 e metric trafo mem mem' SO SO' P P' FX Ps FX'.
  apply (same_outcome sort sort' order order' X X' n m m x _ k1 k2 e metric trafo mem mem' SO SO' P P' FX FX').
  intros Ht a b Hab Hb.
  rewrite <- (xest_perm e (fun i k => log_ratios (map eff (Tof n m (transformed trafo n x) i)) k) n a b s Ps).
  apply xest_ext. intros i k Hi _. f_equal. f_equal.
  apply (nearest_unique n m (transformed trafo n (reorder s x)) (fun i => Tof n m (transformed trafo n x) (nth i s 0%nat))
           (Tof n m (transformed trafo n (reorder s x))) i Hi); [|exact (Tof_ok n m _)].
  apply (nearest_ext n m (reorder s (transformed trafo n x))); [|apply nearest_reorder; [exact Ps|apply Tof_ok]].
  intros a' b' Ha Hb'. unfold edist. f_equal. apply sqdistR_ext; intros f Hf; symmetry; now apply transformed_reorder.
Qed.
(** without transformation only the distances matter, also of data in another number of dimensions *)
Theorem C96_isometric_data :
  forall sort order (X X' : arr2 xr) n m m' x x' k1 k2 e metric mem,
    sort_ok sort -> Permutation order (seq 0 n) -> fin2 X n m x -> fin2 X' n m' x' ->
    (forall i j, (i < n)%nat -> (j < n)%nat -> edist m x i j = edist m' x' i j) ->
    intrinsic_dimension xsum xln sort order X k1 k2 e metric None mem
    = intrinsic_dimension xsum xln sort order X' k1 k2 e metric None mem.
Proof.
  intros sort order X X' n m m' x x' k1 k2 e metric mem SO P FX FX' HE.
  apply (same_outcome sort sort order order X X' n m m' x x' k1 k2 e metric None mem mem SO SO P P FX FX').
  intros _ a b Hab Hb. apply xest_ext. intros i k Hi _. f_equal. f_equal. cbn [transformed]. unfold Tof. f_equal.
  apply map_ext_in. intros j Hj. apply filter_In in Hj as (Hj & _). apply in_seq in Hj. apply HE; lia.
Qed.
Theorem C96_translation :
  forall sort order (X X' : arr2 xr) n m x b k1 k2 e metric trafo mem,
    sort_ok sort -> Permutation order (seq 0 n) -> fin2 X n m x -> fin2 X' n m (fun i f => x i f + b f) ->
    intrinsic_dimension xsum xln sort order X k1 k2 e metric trafo mem
    = intrinsic_dimension xsum xln sort order X' k1 k2 e metric trafo mem.
Proof.
  intros sort order X X' n m x b k1 k2 e metric trafo mem SO P FX FX'.
  apply (same_outcome sort sort order order X X' n m m x _ k1 k2 e metric trafo mem mem SO SO P P FX FX').
  intros Ht a c Hac Hc. apply xest_ext. intros i k Hi _. f_equal. f_equal.
  apply (nearest_unique n m (transformed trafo n (fun i f => x i f + b f)) (Tof n m (transformed trafo n x))
           (Tof n m (transformed trafo n (fun i f => x i f + b f))) i Hi); [|apply Tof_ok].
  apply (nearest_ext n m (transformed trafo n x)); [|apply Tof_ok].
  intros u v Hu Hv. unfold edist. f_equal. unfold sqdistR. apply rsum_ext. intros f Hf.
  assert (NE : feature n x f <> []) by (unfold feature; destruct n; [lia|discriminate]).
  assert (EF : feature n (fun i f => x i f + b f) f = map (fun r => 1 * r + b f) (feature n x f)).
  { unfold feature. rewrite map_map. apply map_ext. intros. ring. }
  destruct trafo as [t|]; cbn [transformed]; [|ring].
  assert (EM : rmean (feature n (fun i f => x i f + b f) f) = rmean (feature n x f) + b f).
  { rewrite EF. rewrite rmean_affine by exact NE. ring. }
  assert (ES : rstd (feature n (fun i f => x i f + b f) f) = rstd (feature n x f)).
  { rewrite EF. rewrite rstd_affine by (try exact NE; lra). rewrite ?Rabs_R1; ring. }
  rewrite EM, ES.
  assert (K : forall u, x u f + b f - (rmean (feature n x f) + b f) = x u f - rmean (feature n x f)) by (intros; ring).
  rewrite !K. reflexivity.
Qed.
(** scaling does not matter if no two objects coincide *)
Theorem C96_scaling :
  forall sort order (X X' : arr2 xr) n m x a k1 k2 e metric mem,
    sort_ok sort -> Permutation order (seq 0 n) -> fin2 X n m x -> fin2 X' n m (fun i f => a * x i f) -> 0 < a ->
    (forall i j, (i < j)%nat -> (j < n)%nat -> 0 < edist m x i j) ->
    intrinsic_dimension xsum xln sort order X k1 k2 e metric None mem
    = intrinsic_dimension xsum xln sort order X' k1 k2 e metric None mem.
Proof.
  intros sort order X X' n m x a k1 k2 e metric mem SO P FX FX' Ha HD.
  apply (same_outcome sort sort order order X X' n m m x _ k1 k2 e metric None mem mem SO SO P P FX FX').
  intros _ c d Hcd Hd. apply xest_ext. intros i k Hi Hk.
  change (log_ratios (map eff (Tof n m x i)) k = log_ratios (map eff (Tof n m (fun i f => a * x i f) i)) k).
  set (T := Tof n m x i). set (T' := Tof n m (fun i f => a * x i f) i).
  assert (ES : forall u v, edist m (fun i f => a * x i f) u v = a * edist m x u v).
  { intros u v. unfold edist. replace (sqdistR m (fun f => a * x u f) (fun f => a * x v f)) with (a * a * sqdistR m (x u) (x v)).
    - rewrite sqrt_mult by (try apply sqdistR_nonneg; nra). now rewrite sqrt_square by lra.
    - unfold sqdistR. rewrite <- rsum_mult. apply rsum_ext. intros. ring. }
  assert (ET : T' = map (Rmult a) T).
  { apply (nearest_unique n m (fun i f => a * x i f) (Tof n m (fun i f => a * x i f)) (fun i => map (Rmult a) (Tof n m x i)) i Hi (Tof_ok n m _)).
    intros u Hu. destruct (Tof_ok n m x u Hu) as (S & Q). split.
    - apply ssorted_map; [|exact S]. intros r s _ _ Hrs. nra.
    - etransitivity; [apply Permutation_map; exact Q|]. rewrite map_map.
      rewrite (map_ext _ (edist m (fun i f => a * x i f) u)); [reflexivity|]. intros v. symmetry. apply ES. }
  assert (PT : forall r, In r T -> 0 < r).
  { intros r Hr. destruct (Tof_ok n m x i Hi) as (_ & Q). apply (Permutation_in _ Q) in Hr.
    apply in_map_iff in Hr as (j & <- & Hj). apply filter_In in Hj as (Hj & Hne). apply in_seq in Hj.
    destruct (Nat.eqb_spec j i); [discriminate|]. destruct (Nat.lt_ge_cases i j); [apply HD; lia|].
    unfold edist. rewrite sqdistR_comm. apply HD; lia. }
  rewrite ET, !map_eff_id; [|intros r Hr; apply in_map_iff in Hr as (s & <- & Hs); apply PT in Hs; nra|exact PT].
  unfold log_ratios. apply rsum_ext. intros j Hj. apply in_seq in Hj. f_equal. unfold kth_dist.
  assert (LT : length T = (n - 1)%nat) by exact (nearest_len n m x (Tof n m x) i Hi (Tof_ok n m x)).
  assert (NM : forall t, nth t (map (Rmult a) T) 0 = a * nth t T 0).
  { intros t. replace 0 with (a * 0) at 1 by ring. apply map_nth. }
  rewrite !NM. assert (0 < nth (j - 1) T 0) by (apply PT, nth_In; lia). field. lra.
Qed.
