(** Property C198, continued: the members of an isolated group are classified as if the
    group were alone.  [part_of] and [isolated] are those of Properties_Group.v. *)
From Coq Require Import String.
From Coq Require Import ZArith List Arith Lia Bool Permutation Sorting.
From Flocq Require Import BinarySingleNaN.
From Verif Require Import Py Num NumT Arr Sort Conc S_Neighbors S_GK S_KNN S_SNN M_IO M_GK M_Hubness M_SNN M_KNN.
From Verif Require Import P_Neighbors P_F64 P_Hubness P_GK P_GK2 P_SNN P_KNN P_KNN2 P_KNN3 P_KNN4.
From Verif Require Import Properties_Hubness Properties_KNN Properties_SNN Properties_CountAcc Properties_Remote Properties_Dup Properties_Separated Properties_Antihub Properties_LargerK Properties_Group.
Import ListNotations.
Local Open Scope nat_scope.

Lemma nearer_not_nan metric (v w : f64) : nearer metric v w = true -> nisnan w = false.
Proof. unfold nearer. destruct w; try reflexivity. destruct (is_sim metric), v; discriminate. Qed.

Theorem C198_classification :
  forall argsort argsort', argsort_ok argsort -> argsort_ok argsort' ->
  forall rp rp', (forall i l, Permutation (rp i l) l) -> (forall i l, Permutation (rp' i l) l) ->
  forall sh sh', (forall (i j : nat) l, Permutation (sh i j l) l) -> (forall (i j : nat) l, Permutation (sh' i j l) l) ->
  forall metric (D U : arr2 f64) f lab labU ks,
    valid_metric metric = true -> part_of D U f -> isolated metric D U f -> all_finite D -> untied D ->
    length lab = nrow D -> length labU = nrow U -> (forall i, i < nrow D -> nth (f i) labU 0%Z = nth i lab 0%Z) ->
    (forall k, In k ks -> 0 < k < nrow D) ->
    exists out outU, score argsort rp sh D lab (map Z.of_nat ks) metric None None = Ok out /\
      score argsort' rp' sh' U labU (map Z.of_nat ks) metric None None = Ok outU /\
      length out = length ks /\ length outU = length ks /\
      forall j s sU, nth_error out j = Some s -> nth_error outU j = Some sU ->
        forall i, i < nrow D -> k_corr sU (f i) = k_corr s i.
Proof.
  intros argsort argsort' AS AS' rp rp' RP RP' sh sh' SH SH' metric D U f lab labU ks Hv P Is Fd Un HL HLU HLab Hks.
  pose proof P as (Hsq & HsqU & Mo & Rg & E).
  assert (Ds : forall l, distinct_sorted l (unique_labels l)) by (intros l; split; [apply unique_sorted|intros z; now rewrite unique_In]).
  destruct (C23_majority argsort AS rp RP sh SH D lab ks metric _ Hsq HL Hv (Ds lab)) as (out & pred & idx & Eo & L & Hd & Hp).
  destruct (C23_majority argsort' AS' rp' RP' sh' SH' U labU ks metric _ HsqU HLU Hv (Ds labU)) as (out' & pred' & idx' & Eo' & L' & Hd' & Hp').
  exists out, out'. split; [exact Eo|]. split; [exact Eo'|]. split; [exact L|]. split; [exact L'|].
  intros j s s' Hs Hs' i Hi. assert (Hj : j < length ks) by (rewrite <- L; apply nth_error_Some; congruence).
  pose proof (Rg i Hi) as Hfi.
  rewrite (de_corr _ _ _ _ _ _ (Hd j s Hs) i) by (apply in_seq; lia).
  rewrite (de_corr _ _ _ _ _ _ (Hd' j s' Hs') (f i)) by (apply in_seq; lia).
  rewrite HLab by exact Hi. f_equal.
  destruct (Hp i Hi) as (Rk & Vo & Ne). destruct (Hp' (f i) Hfi) as (Rk' & Vo' & _). cbv zeta in Vo, Vo'.
  assert (In_k : forall j', j' < length ks -> In (nth j' ks 0) ks) by (intros; now apply nth_In).
  assert (Big : 1 < nrow D) by (destruct (Hks _ (In_k j Hj)); lia).
  assert (Other : exists o, o < nrow D /\ o <> i) by (exists (if i =? 0 then 1 else 0); destruct (Nat.eqb_spec i 0); lia).
  assert (NanD : forall x, x < nrow D -> nisnan (rank_value metric D i x) = false).
  { intros x Hx. unfold rank_value. destruct (Nat.eqb_spec x i) as [->|Hne]; [unfold worst; destruct (is_sim metric); reflexivity|].
    specialize (Fd i x Hi Hx ltac:(congruence)). revert Fd. destruct (at2 D i x); cbn; congruence. }
  assert (NanU : forall x, x < nrow U -> nisnan (rank_value metric U (f i) x) = false).
  { intros x Hx. destruct (in_or_out D f x) as [(a & Ha & <-)|Ho].
    - rewrite (rank_member metric D U f i P Hi) by exact Ha. now apply NanD.
    - destruct Other as (o & Ho' & Hoi). pose proof (member_first metric D U f i P Is Fd Hi o x Ho' Hoi Hx (or_introl Ho)) as Q. now apply nearer_not_nan in Q. }
  assert (Sm : forall j', j' < length ks -> firstn (nth j' ks 0) (idx' (f i)) = map f (firstn (nth j' ks 0) (idx i))).
  { intros j' Hj'. destruct (Hks _ (In_k j' Hj')) as (_ & Hk). pose proof (part_le D U f P) as Le.
    apply (same_group_list metric D U f (nth j' ks 0) i P Is Fd Hi Hk Un); apply ranking_firstn; try lia.
    - revert Rk. apply ranking_cand. intros x. split; [tauto|]. intros Hx. split; [exact Hx|]. now apply NanD.
    - revert Rk'. apply ranking_cand. intros x. split; [tauto|]. intros Hx. split; [exact Hx|]. now apply NanU. }
  assert (Rn : forall k x, In x (firstn k (idx i)) -> x < nrow D).
  { intros k x Hx. apply (rk_in _ _ _ Rk). rewrite <- (firstn_skipn k (idx i)). apply in_app_iff. now left. }
  assert (Vt : forall j', j' < length ks -> filter (fun x => nisfin (rank_value metric U (f i) x)) (firstn (nth j' ks 0) (idx' (f i))) =
      map f (filter (fun x => nisfin (rank_value metric D i x)) (firstn (nth j' ks 0) (idx i)))).
  { intros j' Hj'. rewrite Sm by exact Hj'. pose proof (Rn (nth j' ks 0)) as Q. revert Q. generalize (firstn (nth j' ks 0) (idx i)). induction l as [|a l IH]; intros Q; [reflexivity|].
    cbn [map filter]. rewrite (rank_member metric D U f i P Hi) by (apply Q; now left). destruct (nisfin _); [cbn [map]; f_equal|]; apply IH; intros x Hx; apply Q; now right. }
  assert (Hf : has_finite_neighbor metric D i).
  { destruct Other as (o & Ho' & Hoi). split; [exists o; split; [lia|]; split; [exact Hoi|apply Fd; auto]|]. intros x Hx Hne. left. apply Fd; auto. lia. }
  specialize (Ne Hf (fun k Hk => proj1 (Hks k Hk))). specialize (Vo j Hj (fun j' Hj' => Ne j' ltac:(lia))).
  assert (NeU : forall j', j' <= j -> filter (fun x => nisfin (rank_value metric U (f i) x)) (firstn (nth j' ks 0) (idx' (f i))) <> []).
  { intros j' Hj' Q. rewrite Vt in Q by lia. apply map_eq_nil in Q. now apply (Ne j' ltac:(lia)). }
  specialize (Vo' j Hj NeU). cbv beta in Vo', Vo. rewrite Vt in Vo' by exact Hj. rewrite map_map in Vo'.
  rewrite (map_ext_in _ (fun x => nth x lab 0%Z)) in Vo'.
  - apply (elected_unique _ _ _ Vo' Vo).
  - intros x Hx. apply filter_In in Hx as (Hx & _). apply HLab. now apply Rn in Hx.
Qed.

(** The matrices of [C198_case] with labels: one member of the group has a label that is
    common outside. *)
Example C198_classification_case : let lab := [7; 7; 5]%Z in let labU := [5; 5; 2; 7; 7; 5]%Z in let f := fun i => 3 + i in
  (forall i, i < 3 -> nth (f i) labU 0%Z = nth i lab 0%Z) /\ (forall k, In k [1; 2] -> 0 < k < 3) /\
  match score ref_argsort (fun _ l => l) (fun _ _ l => l) (line_at [0; 1; 3; 100; 101; 104]%Z) labU [1; 2]%Z "distance" None None with
  | Ok out => map (fun s => map (fun i => k_corr s (f i)) [0; 1; 2]) out = [[true; true; false]; [true; true; false]]
  | Raise _ => False
  end.
Proof.
  cbv zeta. split; [|split; [intros k [<-|[<-|[]]]; lia|]].
  - intros i Hi. destruct i as [|[|[|i]]]; try lia; reflexivity.
  - vm_compute. reflexivity.
Qed.

Print Assumptions C198_classification.
