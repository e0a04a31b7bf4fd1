(** Property C186: several k at once in knn_classification.py score, and the random
    classification of objects without finite distances.  The model is [M_KNN.score]
    (knn_classification.py:25-255). *)
From Coq Require Import String.
From Coq Require Import ZArith Reals List Arith Lia Bool Permutation Sorting.
From Verif Require Import Py Num Arr Sort S_Neighbors S_SNN S_KNN M_IO M_GK M_SNN M_KNN.
From Verif Require Import P_F64 P_GK2 P_SNN P_KNN P_KNN2 P_KNN3 P_KNN4 Properties_KNN.
Import ListNotations.
Local Open Scope string_scope.
Local Open Scope nat_scope.

(** ** C186 (1): if every object has a finite neighbour, the results for one k do not depend
    on the other values of k, and every k above the number of objects gives the same *)
Theorem C186_one_k_at_a_time :
  forall argsort, argsort_ok argsort ->
  forall rp, (forall i l, Permutation (rp i l) l) ->
  forall sh, (forall (i j : nat) l, Permutation (sh i j l) l) ->
  forall (D : arr2 f64) lab ks metric cl,
    nrow D = ncol D -> length lab = nrow D -> valid_metric metric = true ->
    (forall k, In k ks -> (0 < k)%Z) -> (forall i, i < nrow D -> has_finite_neighbor metric D i) ->
    distinct_sorted lab cl ->
    exists out, score argsort rp sh D lab ks metric None None = Ok out /\ length out = length ks /\
      forall j s (k : Z), nth_error out j = Some s -> (0 < k)%Z ->
        (k = nth j ks 0 \/ (Z.of_nat (nrow D) <= k /\ Z.of_nat (nrow D) <= nth j ks 0))%Z ->
        exists s1, score argsort rp sh D lab [k] metric None None = Ok [s1] /\
          k_acc s1 = k_acc s /\ (forall i, k_corr s1 i = k_corr s i) /\
          forall a b, a < length cl -> b < length cl -> k_cmat s1 a b = k_cmat s a b.
Proof.
  intros argsort AS rp RP sh SH D lab ks metric cl Hsq HL Hv Hk Hf Hcl. rewrite (distinct_unique _ _ Hcl).
  destruct (loo_full f64_cmp argsort AS rp RP sh SH D lab ks metric Hsq HL Hv) as (out & pred & E & L & Hd & Hr).
  exists out. split; [exact E|]. split; [exact L|]. intros j s k Hs Hk0 Hkk.
  assert (Hj : j < length ks) by (rewrite <- L; apply nth_error_Some; congruence).
  assert (Hk1 : (0 < nth j ks 0)%Z) by (apply Hk, nth_In; exact Hj).
  destruct (loo_full f64_cmp argsort AS rp RP sh SH D lab [k] metric Hsq HL Hv) as (out1 & pred1 & E1 & L1 & Hd1 & Hr1).
  destruct out1 as [|s1 [|? ?]]; try discriminate L1. exists s1. split; [exact E1|].
  destruct (Hd j s Hs) as (De & Co). destruct (Hd1 0 s1 eq_refl) as (De1 & Co1).
  assert (Hp : forall i, i < nrow D -> pred1 0 i = pred j i).
  { intros i Hi. destruct (Hr i Hi) as (Rk & El & Ne). destruct (Hr1 i Hi) as (_ & El1 & Ne1).
    set (idx := m_idx argsort rp metric false D (seq 0 (nrow D)) i) in *.
    assert (Ep : prefix idx k = prefix idx (nth j ks 0%Z)).
    { destruct Hkk as [->|(K1 & K2)]; [reflexivity|].
      assert (Li : length idx <= nrow D).
      { rewrite <- (seq_length (nrow D) 0). apply NoDup_incl_length; [exact (rk_nodup _ _ _ Rk)|].
        intros x Hx. apply (rk_in _ _ _ Rk) in Hx. apply in_seq. lia. }
      unfold prefix. rewrite !(proj2 (Z.ltb_ge _ 0)) by lia. rewrite !firstn_all2 by lia. reflexivity. }
    specialize (El j Hj (fun j' Hj' => Ne (Hf i Hi) Hk j' ltac:(lia))).
    assert (Hk' : forall k0, In k0 [k] -> (0 < k0)%Z) by (intros k0 [<-|[]]; exact Hk0).
    specialize (El1 0 (Nat.lt_0_succ 0) (fun j' Hj' => Ne1 (Hf i Hi) Hk' j' ltac:(simpl; lia))).
    cbn [nth] in El1. rewrite Ep in El1. exact (elected_unique _ _ _ El1 El). }
  assert (Hc : forall i, k_corr s1 i = k_corr s i).
  { intros i. destruct (lt_dec i (nrow D)) as [Hi|Hi].
    - assert (Hs0 : In i (seq 0 (nrow D))) by (apply in_seq; lia).
      rewrite (de_corr _ _ _ _ _ _ De i Hs0), (de_corr _ _ _ _ _ _ De1 i Hs0), Hp by assumption. reflexivity.
    - rewrite (de_other _ _ _ _ _ _ De i), (de_other _ _ _ _ _ _ De1 i); [reflexivity| |];
        intros H; apply in_seq in H; lia. }
  split; [|split; [exact Hc|]].
  - rewrite (co_acc _ _ _ _ _ _ Co), (co_acc _ _ _ _ _ _ Co1).
    now rewrite (filter_ext_in (k_corr s1) (k_corr s)) by (intros; apply Hc).
  - intros a b Ha Hb. rewrite (de_cmat _ _ _ _ _ _ De a b Ha Hb), (de_cmat _ _ _ _ _ _ De1 a b Ha Hb).
    f_equal. apply filter_ext_in. intros i Hi. apply in_seq in Hi. now rewrite Hp by lia.
Qed.

(** ** C186 (2): DEFECT: k = 0 is accepted, and the values of k after it are evaluated with
    neighbours in random order.  [sepD]: with k=[1] all objects are classified correctly,
    with k=[0, 1] and this random permutation none is for k=1. *)
Definition swap2 {A} (l : list A) : list A := match l with a :: b :: t => b :: a :: t | _ => l end.
Lemma swap2_perm {A} (l : list A) : Permutation (swap2 l) l.
Proof. destruct l as [|a [|b l]]; try reflexivity. apply perm_swap. Qed.

Theorem C186_zero_disturbs :
  exists rp sh s0 s1 s, (forall i l, Permutation (rp i l) l) /\ (forall (i j : nat) l, Permutation (sh i j l) l) /\
    score ref_argsort rp sh sepD [1; 2; 1; 2]%Z [1%Z] "distance" None None = Ok [s] /\
    score ref_argsort rp sh sepD [1; 2; 1; 2]%Z [0%Z; 1%Z] "distance" None None = Ok [s0; s1] /\
    forall i, i < 4 -> k_corr s i = true /\ k_corr s1 i = false.
Proof.
  exists (fun _ l => l), (fun _ _ l => swap2 l). do 3 eexists.
  split; [reflexivity|]. split; [intros; apply swap2_perm|].
  split; [reflexivity|]. split; [reflexivity|].
  intros i Hi. do 4 (destruct i as [|i]; [split; vm_compute; reflexivity|]). lia.
Qed.

(** ** C186 (3): an object all of whose distances are infinite is classified by k random
    objects, and it is one of the objects drawn from: its own label takes part.  [l] lists
    all objects, also i, in an order that does not depend on the second permutation. *)
Theorem C186_own_label_votes :
  forall argsort, argsort_ok argsort ->
  forall rp, (forall i l, Permutation (rp i l) l) ->
  forall (D : arr2 f64) lab (k : Z) metric i,
    nrow D = ncol D -> length lab = nrow D -> valid_metric metric = true -> (0 < k)%Z -> i < nrow D ->
    (forall x, x < nrow D -> x <> i -> nisfin (at2 D i x) = false /\ nisnan (at2 D i x) = false) ->
    exists l, Permutation l (seq 0 (nrow D)) /\
      forall sh, (forall (i j : nat) l, Permutation (sh i j l) l) ->
      exists s, score argsort rp sh D lab [k] metric None None = Ok [s] /\
        (k_corr s i = true <->
         elected (map (fun x => nth x lab 0%Z) (firstn (Z.to_nat k) (sh i 0 l))) (nth i lab 0%Z)).
Proof.
  intros argsort AS rp RP D lab k metric i Hsq HL Hv Hk Hi Hrow.
  set (idx := m_idx argsort rp metric false D (seq 0 (nrow D)) i).
  exists idx.
  assert (SH0 : forall (i j : nat) (l : list nat), Permutation l l) by (intros; reflexivity).
  destruct (loo_full f64_cmp argsort AS rp RP (fun _ _ l => l) SH0 D lab [k] metric Hsq HL Hv) as (o0 & p0 & _ & _ & _ & Hr0).
  destruct (Hr0 i Hi) as (Rk & _). clear Hr0 o0 p0. fold idx in Rk.
  assert (Wnan : nisnan (V:=f64) (worst metric) = false) by (unfold worst; destruct (is_sim metric); reflexivity).
  assert (Pi : Permutation idx (seq 0 (nrow D))).
  { apply NoDup_Permutation; [exact (rk_nodup _ _ _ Rk)|apply seq_NoDup|].
    intros x. rewrite (rk_in _ _ _ Rk x), in_seq. unfold rank_value. split; [intros; lia|].
    intros Hx. split; [lia|]. destruct (Nat.eqb_spec x i) as [->|Ne]; [exact Wnan|apply Hrow; lia]. }
  split; [exact Pi|]. intros sh SH.
  set (vcl := map (class_index (unique_labels lab)) lab).
  assert (Hpt : forall x, In x (seq 0 (nrow D)) -> x < length lab) by (intros x Hx; apply in_seq in Hx; lia).
  assert (Hnd : NoDup (seq 0 (nrow D))) by apply seq_NoDup.
  assert (Hvc : forall x, In x (seq 0 (nrow D)) -> nth x vcl 0 = class_index (unique_labels lab) (nth x lab 0%Z) /\
     In (nth x lab 0%Z) (unique_labels lab)) by (intros x Hx; apply loo_vc; now rewrite HL).
  destruct (m_describes f64_cmp argsort AS rp RP sh SH metric false D lab [k] (nrow D) _ vcl _ _ Hpt Hnd Hvc) as (L & Hd).
  pose proof (score_loo argsort rp sh D lab [k] metric Hsq HL Hv) as Es. fold vcl in Es.
  set (out := m_out argsort rp sh metric false D lab [k] (nrow D) (seq 0 (nrow D)) vcl (seq 0 (nrow D))) in *.
  destruct out as [|s [|? ?]] eqn:Eo; try discriminate L. exists s. split; [exact Es|].
  destruct (Hd 0 s eq_refl) as (De & _).
  rewrite (de_corr _ _ _ _ _ _ De i) by (apply in_seq; lia).
  set (nn := firstn (Z.to_nat k) (sh i 0 idx)).
  assert (Hnn : forall x, In x nn -> x < nrow D).
  { intros x Hx. assert (In x (sh i 0 idx)) as H1.
    { rewrite <- (firstn_skipn (Z.to_nat k)). apply in_or_app. now left. }
    apply (Permutation_in x (SH i 0 idx)) in H1. apply (Permutation_in x Pi) in H1. apply in_seq in H1. lia. }
  assert (Hne : nn <> []).
  { assert (Ll : length (sh i 0 idx) = nrow D).
    { rewrite (Permutation_length (SH i 0 idx)), (Permutation_length Pi). apply seq_length. }
    unfold nn. destruct (sh i 0 idx) as [|h t]; [simpl in Ll; lia|].
    destruct (Z.to_nat k) eqn:Ek; [lia|]. discriminate. }
  assert (Ev : knn_voters (knn_row metric false D i) (sh i) 0 [k] idx = [nn]).
  { cbn [knn_voters].
    replace (filter (fun x => nisfin (nth x (knn_row metric false D i) nnan)) (prefix idx k)) with (@nil nat).
    - unfold nn, prefix. now rewrite (proj2 (Z.ltb_ge k 0)) by lia.
    - symmetry. destruct (filter _ (prefix idx k)) as [|x t] eqn:Ef; [reflexivity|]. exfalso.
      assert (Hx : In x (x :: t)) by now left. rewrite <- Ef in Hx. apply filter_In in Hx. destruct Hx as (Hx & Hfx).
      apply prefix_incl in Hx. apply (Permutation_in x Pi), in_seq in Hx.
      rewrite row_loo in Hfx by lia. unfold rank_value in Hfx. destruct (Nat.eqb_spec x i) as [->|Ne].
      + rewrite (worst_nfin f64_cmp) in Hfx. discriminate.
      + rewrite (proj1 (Hrow x ltac:(lia) Ne)) in Hfx. discriminate. }
  assert (Ep : m_pred argsort rp sh metric false D lab [k] vcl (seq 0 (nrow D)) 0 i =
               nth (knn_vote (length (unique_labels lab)) (take 0 vcl nn)) (unique_labels lab) 0%Z).
  { unfold m_pred, m_point, knn_point. fold idx. unfold m_idx in idx. fold idx. rewrite Ev. reflexivity. }
  rewrite Ep.
  assert (El : elected (map (fun x => nth x lab 0%Z) nn)
     (nth (knn_vote (length (unique_labels lab)) (take 0 vcl nn)) (unique_labels lab) 0%Z)).
  { replace (map (fun x => nth x lab 0%Z) nn) with (map (fun c => nth c (unique_labels lab) 0%Z) (take 0 vcl nn)).
    - apply vote_elected.
      + apply unique_NoDup.
      + unfold take. destruct nn; [congruence|discriminate].
      + intros c Hc. unfold take in Hc. apply in_map_iff in Hc. destruct Hc as (x & <- & Hx).
        destruct (Hvc x ltac:(apply in_seq; specialize (Hnn x Hx); lia)) as (-> & Hin). now apply class_index_lt.
    - unfold take. rewrite map_map. apply map_ext_in. intros x Hx.
      destruct (Hvc x ltac:(apply in_seq; specialize (Hnn x Hx); lia)) as (-> & Hin). now apply class_index_nth. }
  rewrite Z.eqb_eq. split; intros H.
  - rewrite H. exact El.
  - exact (elected_unique _ _ _ H El).
Qed.

(** so with k = 1 there are random choices under which such an object is classified
    correctly although no other object has its label *)
Definition to_front (i : nat) (l : list nat) : list nat :=
  filter (fun x => x =? i) l ++ filter (fun x => negb (x =? i)) l.
Lemma to_front_perm i l : Permutation (to_front i l) l.
Proof.
  unfold to_front. induction l as [|x l IH]; [reflexivity|]. cbn [filter]. destruct (x =? i); cbn [negb].
  - cbn [app]. now constructor.
  - rewrite <- Permutation_middle. now constructor.
Qed.

Theorem C186_own_label_wins :
  forall argsort, argsort_ok argsort ->
  forall rp, (forall i l, Permutation (rp i l) l) ->
  forall (D : arr2 f64) lab metric i,
    nrow D = ncol D -> length lab = nrow D -> valid_metric metric = true -> i < nrow D ->
    (forall x, x < nrow D -> x <> i -> nisfin (at2 D i x) = false /\ nisnan (at2 D i x) = false) ->
    exists sh s, (forall (i j : nat) l, Permutation (sh i j l) l) /\
      score argsort rp sh D lab [1%Z] metric None None = Ok [s] /\ k_corr s i = true.
Proof.
  intros argsort AS rp RP D lab metric i Hsq HL Hv Hi Hrow.
  destruct (C186_own_label_votes argsort AS rp RP D lab 1 metric i Hsq HL Hv eq_refl Hi Hrow) as (l & Pl & H).
  assert (SH : forall (i' j : nat) l0, Permutation (to_front i l0) l0) by (intros; apply to_front_perm).
  destruct (H (fun _ _ => to_front i) SH) as (s & Es & Hs).
  exists (fun _ _ => to_front i), s. split; [exact SH|]. split; [exact Es|]. apply Hs.
  assert (Hil : In i l) by (apply (Permutation_in i (Permutation_sym Pl)), in_seq; lia).
  unfold to_front. destruct (filter (fun x => x =? i) l) as [|h t] eqn:Ef.
  - exfalso. assert (Hin : In i (filter (fun x => x =? i) l)) by (apply filter_In; split; [exact Hil|apply Nat.eqb_refl]).
    rewrite Ef in Hin. contradiction.
  - assert (Hh : In h (h :: t)) by now left. rewrite <- Ef in Hh. apply filter_In in Hh. destruct Hh as (_ & Hh).
    apply Nat.eqb_eq in Hh. subst h. change (Z.to_nat 1) with 1. cbn [app firstn map].
    left. intros c' Hc'. unfold zvotes. cbn [count_occ]. destruct (Z.eq_dec (nth i lab 0%Z) (nth i lab 0%Z)); [|congruence].
    destruct (Z.eq_dec (nth i lab 0%Z) c'); [congruence|]. lia.
Qed.

(** the hypotheses are met: [sepD] with two values of k, and an isolated object 0 *)
Definition isoD : arr2 f64 := Arr2 3 3 (fun i j => if i =? j then n0 else if (i =? 0) || (j =? 0) then ninf else n1).
Example C186_case :
  (forall i, i < nrow sepD -> has_finite_neighbor "distance" sepD i) /\
  distinct_sorted [1; 2; 1; 2]%Z [1; 2]%Z /\
  (forall x, x < nrow isoD -> x <> 0 -> nisfin (at2 isoD 0 x) = false /\ nisnan (at2 isoD 0 x) = false).
Proof.
  split; [|split].
  - intros i Hi. change (nrow sepD) with 4 in Hi. split.
    + exists ((i + 2) mod 4). change (ncol sepD) with 4.
      do 4 (destruct i as [|i]; [split; [cbn; lia|]; split; [cbn; lia|vm_compute; reflexivity]|]). lia.
    + change (ncol sepD) with 4. intros x Hx _. left.
      do 4 (destruct i as [|i]; [do 4 (destruct x as [|x]; [vm_compute; reflexivity|]); lia|]). lia.
  - split; [repeat constructor|]. intros c. cbn. tauto.
  - intros x Hx Hne. change (nrow isoD) with 3 in Hx.
    destruct x as [|[|[|x]]]; try lia; split; vm_compute; reflexivity.
Qed.

Print Assumptions C186_one_k_at_a_time.
Print Assumptions C186_zero_disturbs.
Print Assumptions C186_own_label_votes.
Print Assumptions C186_own_label_wins.
