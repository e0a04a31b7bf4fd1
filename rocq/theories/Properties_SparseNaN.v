(** Property C175: stored NaN values and zeros in [r_precision]
    (knn_classification.py:468-644). *)
From Coq Require Import String.
From Coq Require Import ZArith List Arith Lia Bool Permutation.
From Verif Require Import Py Num Arr Sort S_Neighbors M_IO M_GK M_SNN M_KNN M_MPEmpiric M_SparseKNN.
From Verif Require Import S_SparseKNN P_SparseKNN P_SparseKNN2 P_SparseKNN3 P_SparseKNN4 P_SparseKNN5 S_SparseNaN P_SparseNaN Properties_RPrec.
Import ListNotations.
Local Open Scope nat_scope.

(** all objects that share their label with another one have a stored similarity *)
Definition rows_filled (S : smat f64) (lab : list Z) : Prop :=
  forall i, i < length lab -> relevant lab i <> 0 -> exists x, linked S i x.

(** ** the call raises IndexError exactly if some object with a mate has a
    similarity (not NaN) stored so far to the right that, not counting stored
    zeros, there is no column of that rank *)
Theorem C175_index_error :
  forall argpart : list f64 -> list nat -> list nat, argpart_ok argpart ->
  forall rp, (forall i l, Permutation (rp i l) l) ->
  forall sh, (forall (i j : nat) l, Permutation (sh i j l) l) ->
  forall vsum (S : smat f64) (lab : list Z) (yp : nat),
    srow S = length lab -> scol S = length lab -> two_share lab -> rows_filled S lab ->
    r_precision argpart rp sh vsum false S lab "similarity" yp = Raise IndexError <->
    exists i x, i < length lab /\ relevant lab i <> 0 /\ known S i x /\ length (nonzero_cols S i) <= rank S i x.
Proof.
  intros argpart AP rp RP sh SH vsum S lab yp HR HC Hm Hne.
  assert (Dec : forall i, (exists x, known S i x /\ length (nonzero_cols S i) <= rank S i x) \/ readable S i).
  { intros i.
    destruct (existsb (fun x => negb (nisnan (sval S i x)) && (length (nonzero_cols S i) <=? rank S i x)) (sp_cols S i)) eqn:E.
    - left. apply existsb_exists in E as (x & Hx & E). apply andb_true_iff in E as (E1 & E2). exists x.
      split; [split; [now apply stored_linked|now apply negb_true_iff]|now apply Nat.leb_le].
    - right. intros x (Hx & Hn). destruct (Nat.lt_ge_cases (rank S i x) (length (nonzero_cols S i))) as [|C]; [assumption|]. exfalso.
      apply not_true_iff_false in E. apply E, existsb_exists. exists x. split; [now apply stored_linked|].
      rewrite Hn. now apply Nat.leb_le. }
  assert (W : forall i, i < length lab ->
    (exists r, rprec_worker argpart rp sh S (enc lab) (erel lab) yp (class_index (ecl lab) int_min) i = Ok r /\ (relevant lab i = 0 \/ readable S i)) \/
    (rprec_worker argpart rp sh S (enc lab) (erel lab) yp (class_index (ecl lab) int_min) i = Raise IndexError /\
     relevant lab i <> 0 /\ exists x, known S i x /\ length (nonzero_cols S i) <= rank S i x)).
  { intros i Hi. destruct (Nat.eq_dec (relevant lab i) 0) as [E|E].
    - left. eexists. split; [now apply worker_alone|now left].
    - destruct (worker_gen f64_cmp argpart AP rp RP sh SH S lab yp i HC Hi E (Hne i Hi E)) as (L & _ & _ & _ & A & B).
      destruct (Dec i) as [D|D].
      + right. split; [|now split]. apply A. intros C. destruct D as (x & Hx & Hl). apply C in Hx. lia.
      + left. destruct (B D) as (r & Hr & _). exists r. split; [exact Hr|now right]. }
  split.
  - intros H. destruct (mapM (rprec_worker argpart rp sh S (enc lab) (erel lab) yp (class_index (ecl lab) int_min)) (seq 0 (length lab))) as [rs|e] eqn:Ers.
    + destruct (rprec_ok argpart rp sh vsum S lab yp rs HR HC (share_mates lab Hm) Ers) as (out & Ho & _). congruence.
    + assert (X : exists i, i < length lab /\ rprec_worker argpart rp sh S (enc lab) (erel lab) yp (class_index (ecl lab) int_min) i = Raise e).
      { clear - Ers. assert (G : forall l, mapM (rprec_worker argpart rp sh S (enc lab) (erel lab) yp (class_index (ecl lab) int_min)) l = Raise e ->
          exists i, In i l /\ rprec_worker argpart rp sh S (enc lab) (erel lab) yp (class_index (ecl lab) int_min) i = Raise e).
        { induction l as [|a l IH]; [discriminate|]. cbn [mapM]. destruct (rprec_worker _ _ _ _ _ _ _ _ a) as [r|e0] eqn:E; cbn [bind].
          - destruct (mapM _ l) as [rs|e1]; [discriminate|]. cbn [bind]. intros H. injection H as ->. destruct (IH eq_refl) as (i & Hi & Hr).
            exists i. split; [now right|exact Hr].
          - intros H. injection H as ->. exists a. split; [now left|exact E]. }
        destruct (G _ Ers) as (i & Hi & Hr). apply in_seq in Hi. exists i. split; [lia|exact Hr]. }
      destruct X as (i & Hi & Hr). destruct (W i Hi) as [(r & C & _)|(_ & Hrel & x & Hx & Hl)]; [congruence|].
      exists i, x. exact (conj Hi (conj Hrel (conj Hx Hl))).
  - intros (i & x & Hi & Hrel & Hx & Hl). rewrite rprec_open by (auto; reflexivity). change (is_sim "similarity") with true. cbn [negb orb].
    rewrite (mapM_first_raise _ _ IndexError i); [reflexivity|apply in_seq; lia| |].
    + destruct (W i Hi) as [(r & _ & [C|C])|(E & _)]; [congruence| |exact E]. apply C in Hx. lia.
    + intros j Hj Hok. apply in_seq in Hj. destruct (W j ltac:(lia)) as [(r & E & _)|(E & _)]; [rewrite E in Hok; discriminate|exact E].
Qed.

(** ** otherwise it returns; the precision of an object counts the labels of the
    [blamed] objects of a ranking [L] of its known similarities, of which the
    first and only the first R + 1 - (number of NaN) are sure to be the best, and
    whose head is sure to be a maximum with at most one NaN *)
Theorem C175_neighbours :
  forall argpart : list f64 -> list nat -> list nat, argpart_ok argpart ->
  forall rp, (forall i l, Permutation (rp i l) l) ->
  forall sh, (forall (i j : nat) l, Permutation (sh i j l) l) ->
  forall vsum (S : smat f64) (lab : list Z) (yp : nat),
    srow S = length lab -> scol S = length lab -> two_share lab -> rows_filled S lab ->
    (forall i, i < length lab -> relevant lab i <> 0 -> readable S i) ->
    exists out, r_precision argpart rp sh vsum false S lab "similarity" yp = Ok out /\
      forall i, i < length lab ->
        (relevant lab i = 0 -> nth i (rp_item out) nnan = n0) /\
        (relevant lab i <> 0 -> let R := relevant lab i in exists L,
           NoDup L /\ (forall x, In x L <-> known S i x) /\
           (n_nan S i <= R -> best_first S i (R + 1 - n_nan S i) L) /\
           (n_nan S i <= 1 -> best_first S i 1 L) /\
           let nn := map (blamed S i) (firstn R (tl L)) in
           nth i (rp_item out) nnan =
             if hits lab i nn =? 0 then n0 else ndiv (nofnat (hits lab i nn)) (nofnat R)).
Proof.
  intros argpart AP rp RP sh SH vsum S lab yp HR HC Hm Hne Hrd.
  set (wk := rprec_worker argpart rp sh S (enc lab) (erel lab) yp (class_index (ecl lab) int_min)).
  destruct (fin_choice (@n0 f64 _, @nil nat) (fun i r => wk i = Ok r) (length lab)) as (f & Hf).
  { intros i Hi. destruct (Nat.eq_dec (relevant lab i) 0) as [E|E]; [eexists; now apply worker_alone|].
    destruct (worker_gen f64_cmp argpart AP rp RP sh SH S lab yp i HC Hi E (Hne i Hi E)) as (L & _ & _ & _ & _ & B).
    destruct (B (Hrd i Hi E)) as (r & Hr & _). now exists r. }
  destruct (rprec_ok argpart rp sh vsum S lab yp (map f (seq 0 (length lab))) HR HC (share_mates lab Hm)) as (out & Ho & Hit).
  { apply mapM_ok_map. intros i Hi. apply in_seq in Hi. apply Hf. lia. }
  exists out. split; [exact Ho|]. intros i Hi.
  assert (Ei : nth i (rp_item out) nnan = fst (f i)).
  { rewrite Hit, map_map. rewrite nth_indep with (d' := (fun i => fst (f i)) 0) by (rewrite map_length, seq_length; exact Hi).
    rewrite (map_nth (fun i => fst (f i))). now rewrite seq_nth. }
  rewrite Ei. pose proof (Hf i Hi) as Hw. split.
  - intros E. unfold wk in Hw. rewrite worker_alone in Hw by assumption. injection Hw as <-. reflexivity.
  - intros E R. destruct (worker_gen f64_cmp argpart AP rp RP sh SH S lab yp i HC Hi E (Hne i Hi E)) as (L & ND & IL & Hb & _ & B).
    destruct (B (Hrd i Hi E)) as (r & Hr & Hfr). fold wk in Hr. rewrite Hw in Hr. injection Hr as <-.
    exists L. split; [exact ND|]. split; [exact IL|]. split; [intros Hq; apply Hb; [now left|exact Hq]|]. split; [|exact Hfr].
    intros Hq. destruct (n_nan S i) as [|[|q]] eqn:En; [| |lia].
    + apply (Hb 0); lia.
    + apply (Hb 1); lia.
Qed.

(** without stored zeros nothing is misread *)
Theorem C175_no_zeros :
  forall (S : smat f64) i, (forall x, linked S i x -> nonzero (sval S i x) = true) ->
    readable S i /\ forall x, linked S i x -> blamed S i x = x.
Proof.
  intros S i H.
  assert (E : nonzero_cols S i = sp_cols S i).
  { unfold nonzero_cols, sp_cols. apply filter_ext_in. intros x Hx. apply in_seq in Hx. destruct (is_stored S i x) eqn:E; [|reflexivity].
    cbn [andb]. apply H. split; [lia|]. unfold is_stored in E. destruct (stored S i x) as [v|]; [now exists v|discriminate]. }
  assert (B : forall x, linked S i x -> rank S i x < length (sp_cols S i) /\ nth (rank S i x) (sp_cols S i) 0 = x).
  { intros x Hx. apply stored_linked, (In_nth _ _ 0) in Hx as (a & Ha & <-).
    assert (Ra : rank S i (nth a (sp_cols S i) 0) = a) by (unfold rank, sp_cols; now apply rank_nth).
    rewrite Ra. now split. }
  split.
  - intros x (Hx & _). rewrite E. now apply B.
  - intros x Hx. unfold blamed. rewrite E. now apply B.
Qed.

(** ** DEFECT, stored zero and NaN: object 0 is most similar to object 2, which has
    another label; its R-precision is 1, because the similarity is taken for the
    one to object 3, although that is NaN *)
Definition shifted : smat f64 := SMat 4 4 (fun i j =>
  match i, j with
  | 0, 0 => Some (@nofnat f64 _ 5) | 0, 1 => Some (@n0 f64 _) | 0, 2 => Some (@nofnat f64 _ 3) | 0, 3 => Some (@nnan f64 _)
  | _, _ => if i =? j then Some (@nofnat f64 _ 5) else None end).

Theorem C175_wrong_object :
  exists out, r_precision ref_argpart (fun _ l => l) (fun _ _ l => l) (hd n0) false shifted [0; 1; 1; 0]%Z "similarity" 0 = Ok out /\
    nlt n0 (nth 0 (rp_item out) nnan) = true /\
    top_list (sval shifted 0) (fun x => known shifted 0 x /\ x <> 0) 1 [2] /\
    relevant [0; 1; 1; 0]%Z 0 = 1 /\ hits [0; 1; 1; 0]%Z 0 [2] = 0 /\ blamed shifted 0 2 = 3 /\ n_nan shifted 0 = 1.
Proof.
  assert (E : match r_precision ref_argpart (fun _ l => l) (fun _ _ l => l) (hd n0) false shifted [0; 1; 1; 0]%Z "similarity" 0 with
              | Ok o => nlt n0 (nth 0 (rp_item o) nnan) | _ => false end = true) by (vm_compute; reflexivity).
  destruct (r_precision _ _ _ _ _ _ _ _ 0) as [o|]; [|discriminate]. exists o. split; [reflexivity|]. split; [exact E|]. clear E.
  split; [|vm_compute; repeat split].
  assert (Kn : forall x, known shifted 0 x /\ x <> 0 -> x = 1 \/ x = 2).
  { intros x (((Hx & v & Ev) & Hn) & H0). destruct x as [|[|[|[|x]]]]; [congruence|now left|now right|discriminate|cbn in Hx; lia]. }
  constructor.
  - reflexivity.
  - repeat constructor. intros [].
  - intros x [<-|[]]. split; [|discriminate]. split; [|reflexivity]. split; [cbn; lia|]. now eexists.
  - intros x y Hx Hnx [<-|[]]. destruct (Kn x Hx) as [-> | ->]; [vm_compute; reflexivity|]. exfalso. apply Hnx. now left.
  - intros h x Hh Hx. cbn in Hh. injection Hh as <-. destruct (Kn x Hx) as [-> | ->]; vm_compute; reflexivity.
Qed.

(** ** DEFECT, a single NaN and no zero: numpy's contract for argpartition allows the
    neighbour to be the less similar one *)
(** leaves the two smallest values in another order if no position below 2 is
    asked for *)
Definition swap2 (p : list nat) : list nat := match p with a :: b :: l => b :: a :: l | _ => p end.
Definition other_argpart (l : list f64) (ks : list nat) : list nat :=
  if forallb (fun k => 2 <=? k) ks then swap2 (ref_argpart l ks) else ref_argpart l ks.
Lemma other_argpart_ok : argpart_ok other_argpart.
Proof.
  intros l ks Hk. unfold other_argpart. pose proof (ref_argpart_ok f64_cmp l ks Hk) as (P & O).
  destruct (forallb _ ks) eqn:E; [|now split]. rewrite forallb_forall in E.
  set (p := ref_argpart l ks) in *.
  assert (N2 : forall a, 2 <= a -> nth a (swap2 p) 0 = nth a p 0).
  { intros a Ha. destruct p as [|x [|y r]]; try reflexivity. destruct a as [|[|a]]; [lia|lia|reflexivity]. }
  split.
  - rewrite <- P. destruct p as [|x [|y r]]; cbn [swap2]; try apply Permutation_refl. constructor.
  - intros k Hin a. specialize (E k Hin). apply Nat.leb_le in E. specialize (O k Hin). pose proof (Hk k Hin) as Hkl.
    assert (Lp : length p = length l) by (rewrite (Permutation_length P); apply seq_length).
    rewrite (N2 k E). split.
    + intros Ha. destruct (Nat.lt_ge_cases a 2) as [L|L]; [|rewrite N2 by exact L; now apply O].
      destruct p as [|x [|y r]]; [cbn in Lp; lia|cbn in Lp; lia|]. destruct a as [|[|a]]; [|
        |lia].
      * exact (proj1 (O 1) ltac:(lia)).
      * exact (proj1 (O 0) ltac:(lia)).
    + intros Ha Hal. rewrite N2 by lia. now apply O.
Qed.

Definition one_nan : smat f64 := SMat 4 4 (fun i j =>
  match i, j with
  | 0, 0 => Some (@nofnat f64 _ 5) | 0, 1 => Some (@nofnat f64 _ 3) | 0, 2 => Some (@n1 f64 _) | 0, 3 => Some (@nnan f64 _)
  | _, _ => if i =? j then Some (@nofnat f64 _ 5) else None end).

Theorem C175_one_nan :
  exists out out',
    r_precision ref_argpart (fun _ l => l) (fun _ _ l => l) (hd n0) false one_nan [0; 1; 0; 1]%Z "similarity" 0 = Ok out /\
    r_precision other_argpart (fun _ l => l) (fun _ _ l => l) (hd n0) false one_nan [0; 1; 0; 1]%Z "similarity" 0 = Ok out' /\
    argpart_ok other_argpart /\
    nlt (nth 0 (rp_item out) nnan) (nth 0 (rp_item out') nnan) = true /\
    top_list (sval one_nan 0) (fun x => known one_nan 0 x /\ x <> 0) 1 [1] /\ hits [0; 1; 0; 1]%Z 0 [1] = 0 /\ n_nan one_nan 0 = 1.
Proof.
  assert (E : match r_precision ref_argpart (fun _ l => l) (fun _ _ l => l) (hd n0) false one_nan [0; 1; 0; 1]%Z "similarity" 0,
                    r_precision other_argpart (fun _ l => l) (fun _ _ l => l) (hd n0) false one_nan [0; 1; 0; 1]%Z "similarity" 0 with
              | Ok o, Ok o' => nlt (nth 0 (rp_item o) nnan) (nth 0 (rp_item o') nnan) | _, _ => false end = true) by (vm_compute; reflexivity).
  destruct (r_precision ref_argpart _ _ _ _ _ _ _ 0) as [o|]; [|discriminate].
  destruct (r_precision other_argpart _ _ _ _ _ _ _ 0) as [o'|]; [|discriminate].
  exists o, o'. split; [reflexivity|]. split; [reflexivity|]. split; [apply other_argpart_ok|]. split; [exact E|]. clear E.
  split; [|vm_compute; repeat split].
  assert (Kn : forall x, known one_nan 0 x /\ x <> 0 -> x = 1 \/ x = 2).
  { intros x (((Hx & v & Ev) & Hn) & H0). destruct x as [|[|[|[|x]]]]; [congruence|now left|now right|discriminate|cbn in Hx; lia]. }
  constructor.
  - reflexivity.
  - repeat constructor. intros [].
  - intros x [<-|[]]. split; [|discriminate]. split; [|reflexivity]. split; [cbn; lia|]. now eexists.
  - intros x y Hx Hnx [<-|[]]. destruct (Kn x Hx) as [-> | ->]; [|vm_compute; reflexivity]. exfalso. apply Hnx. now left.
  - intros h x Hh Hx. cbn in Hh. injection Hh as <-. destruct (Kn x Hx) as [-> | ->]; vm_compute; reflexivity.
Qed.

(** ** The hypotheses can be met: the first example is readable *)
Example C175_case :
  two_share [0; 1; 1; 0]%Z /\ rows_filled shifted [0; 1; 1; 0]%Z /\ readable shifted 0 /\ n_nan one_nan 0 = 1.
Proof.
  split; [exists 0, 3; cbn; repeat split; lia|]. split.
  - intros i Hi _. exists i. split; [exact Hi|]. destruct i as [|[|[|[|i]]]]; try (now eexists). cbn in Hi. lia.
  - split; [|reflexivity]. intros x ((Hx & _) & Hn). destruct x as [|[|[|[|x]]]]; [| | | |cbn in Hx; lia].
    1-3: clear; apply Nat.ltb_lt; vm_compute; reflexivity.
    discriminate.
Qed.

Print Assumptions C175_index_error.
Print Assumptions C175_neighbours.
Print Assumptions C175_no_zeros.
Print Assumptions C175_wrong_object.
Print Assumptions C175_one_nan.
