(** Property C203: occurrence counts when the data set falls apart into isolated groups. *)
From Coq Require Import String.
From Coq Require Import ZArith List Arith Lia Bool Permutation.
From Flocq Require Import BinarySingleNaN.
From Verif Require Import Py Num NumT Arr Sort Conc S_Neighbors S_SNN S_Relabel M_IO M_Hubness M_SNN.
From Verif Require Import P_Neighbors P_F64 P_Hubness P_HubnessMain P_SNN P_Relabel P_Relabel2.
From Verif Require Import Properties_Hubness Properties_SNN Properties_CountAcc Properties_Remote Properties_Dup Properties_Separated Properties_LargerK Properties_Group.
Import ListNotations.
Local Open Scope nat_scope.

(** ** Specification *)
(** object [y] of [U] belongs to an isolated group of more than [k] objects, none of which
    is in the group [f] *)
Definition in_other_group (metric : string) (D U : arr2 f64) (f : nat -> nat) (k y : nat) : Prop :=
  exists (D' : arr2 f64) f', part_of D' U f' /\ isolated metric D' U f' /\ k < nrow D' /\
    (exists j, j < nrow D' /\ f' j = y) /\ (forall a b, a < nrow D -> b < nrow D' -> f a <> f' b).

(** ** Sums *)
Lemma count_concat (L : list (list nat)) x : count_occ Nat.eq_dec (concat L) x = list_sum (map (fun y => count_occ Nat.eq_dec (nth y L []) x) (seq 0 (length L))).
Proof.
  induction L as [|l L IH]; [reflexivity|]. cbn [concat length seq map nth]. rewrite count_occ_app, IH. change (list_sum (?a :: ?l)) with (a + list_sum l).
  f_equal. now rewrite <- seq_shift, map_map.
Qed.
Lemma list_sum_perm l l' : Permutation l l' -> list_sum l = list_sum l'.
Proof. intros H. unfold list_sum. induction H; cbn [fold_right] in *; lia. Qed.
Lemma list_sum_split (p : nat -> bool) (g : nat -> nat) l :
  list_sum (map g l) = list_sum (map g (filter p l)) + list_sum (map g (filter (fun x => negb (p x)) l)).
Proof.
  induction l as [|a l IH]; [reflexivity|]. cbn [map filter]. change (list_sum (g a :: map g l)) with (g a + list_sum (map g l)). rewrite IH.
  destruct (p a); cbn [negb map]; [change (list_sum (g a :: ?r)) with (g a + list_sum r)|change (list_sum (g a :: ?r)) with (g a + list_sum r)]; lia.
Qed.
Lemma list_sum_zero (g : nat -> nat) l : (forall x, In x l -> g x = 0) -> list_sum (map g l) = 0.
Proof. induction l as [|a l IH]; intros H; [reflexivity|]. cbn [map]. change (list_sum (?r :: ?s)) with (r + list_sum s). rewrite IH, H; auto; [now left|intros x Hx; apply H; now right]. Qed.
Lemma map_f_nodup {V} (D U : arr2 V) f : part_of D U f -> NoDup (map f (seq 0 (nrow D))).
Proof.
  intros P. apply (NoDup_nth _ 0). rewrite map_length, seq_length. intros a b Ha Hb. rewrite !(nth_indep (map f _) 0 (f 0)) by (rewrite map_length, seq_length; assumption). rewrite !map_nth, !seq_nth by assumption.
  cbn [plus]. now apply (part_inj D U f P).
Qed.
Lemma sum_group {V} (D U : arr2 V) f (g h : nat -> nat) : part_of D U f ->
  (forall a, a < nrow D -> g (f a) = h a) -> (forall y, y < nrow U -> outsider D f y -> g y = 0) ->
  list_sum (map g (seq 0 (nrow U))) = list_sum (map h (seq 0 (nrow D))).
Proof.
  intros P Hg Ho. set (p := fun y => existsb (fun j => f j =? y) (seq 0 (nrow D))).
  assert (Pin : forall y, p y = true <-> exists j, j < nrow D /\ f j = y).
  { intros y. unfold p. rewrite existsb_exists. split; intros (j & Hj & E); exists j; [apply in_seq in Hj; apply Nat.eqb_eq in E; split; [lia|exact E]|split; [apply in_seq; lia|now apply Nat.eqb_eq]]. }
  rewrite (list_sum_split p). rewrite (list_sum_zero g (filter (fun x => negb (p x)) _)), Nat.add_0_r.
  - rewrite (list_sum_perm _ (map g (map f (seq 0 (nrow D))))).
    + rewrite map_map. f_equal. apply map_ext_in. intros a Ha. apply in_seq in Ha. apply Hg. lia.
    + apply Permutation_map, NoDup_Permutation; [apply NoDup_filter, seq_NoDup|now apply (map_f_nodup D U)|]. intros y. rewrite filter_In, Pin, in_map_iff. split.
      * intros (_ & j & Hj & E). exists j. split; [exact E|apply in_seq; lia].
      * intros (j & E & Hj). apply in_seq in Hj. split; [|exists j; split; [lia|exact E]]. destruct P as (_ & _ & _ & Rg & _). apply in_seq. specialize (Rg j ltac:(lia)). lia.
  - intros y Hy. apply filter_In in Hy as (Hy & N). apply in_seq in Hy. apply Ho; [lia|]. intros j Hj E. apply negb_true_iff in N. assert (p y = true) by (apply Pin; eauto). congruence.
Qed.

(** ** Members of another group have no neighbours outside it *)
Lemma stays_inside metric (D' U : arr2 f64) f' k j l x : part_of D' U f' -> isolated metric D' U f' -> all_finite D' -> j < nrow D' -> k < nrow D' ->
  kset (rankm metric U (f' j)) (nrow U) k l -> In x l -> ~ outsider D' f' x.
Proof.
  intros P Is Fd Hj Hk [k1 k2 k3 k4] Hx Ho. pose proof P as (_ & _ & _ & Rg & _).
  apply in_split in Hx as HS. destruct HS as (l1 & l2 & El).
  assert (M : exists b, b < nrow D' /\ b <> j /\ ~ In (f' b) (l1 ++ l2)).
  { set (m := filter (fun b => negb (b =? j)) (seq 0 (nrow D'))).
    assert (Lm : length m = nrow D' - 1).
    { assert (L : length (j :: m) = nrow D'); [|cbn [length] in L; lia]. rewrite <- (seq_length (nrow D') 0). apply Permutation_length, NoDup_Permutation; [|apply seq_NoDup|].
      - constructor; [|apply NoDup_filter, seq_NoDup]. unfold m. rewrite filter_In, Nat.eqb_refl. intros (_ & H). discriminate.
      - intros y. unfold m. cbn [In]. rewrite filter_In, in_seq, negb_true_iff, Nat.eqb_neq. destruct (Nat.eq_dec y j); intuition lia. }
    destruct (Forall_Exists_dec (fun b => In (f' b) (l1 ++ l2)) (fun b => in_dec Nat.eq_dec (f' b) (l1 ++ l2)) m) as [F|E].
    - exfalso. rewrite Forall_forall in F. assert (Le : length (map f' m) <= length (l1 ++ l2)).
      { apply NoDup_incl_length.
        - assert (G : forall s, NoDup s -> (forall z, In z s -> z < nrow D') -> NoDup (map f' s)).
          { induction s as [|a s IH]; intros Nd Rn; [constructor|]. inversion Nd; subst. cbn [map]. constructor; [|apply IH; auto; intros z Hz; apply Rn; now right].
            intros H. apply in_map_iff in H as (b & Eb & Hb). apply (part_inj D' U f' P) in Eb; [subst; contradiction|apply Rn; now right|apply Rn; now left]. }
          apply G; [apply NoDup_filter, seq_NoDup|]. intros z Hz. apply filter_In in Hz as (Hz & _). apply in_seq in Hz. lia.
        - intros z Hz. apply in_map_iff in Hz as (b & <- & Hb). now apply F. }
      rewrite map_length, Lm in Le. rewrite El in k1. rewrite app_length in *. cbn [length] in k1. lia.
    - apply Exists_exists in E as (b & Hb & N). unfold m in Hb. rewrite filter_In, in_seq, negb_true_iff, Nat.eqb_neq in Hb. exists b. split; [lia|]. split; [tauto|exact N]. }
  destruct M as (b & Hb & Hbj & N). assert (Hbl : ~ In (f' b) l). { rewrite El. rewrite in_app_iff in *. intros [A|[A|A]]; [tauto| |tauto]. subst x. now apply (Ho b Hb). }
  pose proof (k4 (f' b) x (Rg b Hb) Hbl Hx) as Q. rewrite (member_first metric D' U f' j P Is Fd Hj b x Hb Hbj (k3 x Hx) (or_introl Ho)) in Q. discriminate.
Qed.

Theorem C203_occurrences :
  forall (argpart argpart' : list f64 -> list nat -> list nat), argpart_ok argpart -> argpart_ok argpart' ->
  forall sparse sparse' (D U : arr2 f64) f (k : nat) metric se se' rps rps',
    valid_metric metric = true -> part_of D U f -> isolated metric D U f -> all_finite U -> untied D -> k < nrow D ->
    (forall y, y < nrow U -> outsider D f y -> in_other_group metric D U f k y) ->
    (forall i, i < nrow D -> Permutation (rps i) (seq 0 (ncol D))) ->
    (forall i, i < nrow U -> Permutation (rps' i) (seq 0 (ncol U))) ->
    exists o o', hubness_serial argpart sparse D (Z.of_nat k) metric se rps = Ok o /\
      hubness_serial argpart' sparse' U (Z.of_nat k) metric se' rps' = Ok o' /\
      forall i, i < nrow D -> nth (f i) (out_Nk o') 0 = nth i (out_Nk o) 0.
Proof.
  intros argpart argpart' AP AP' sparse sparse' D U f k metric se se' rps rps' Hv P Is Fu Un Hk Oth Hrp Hrp'. pose proof P as (Sd & Su & Mo & Rg & E).
  assert (Sub : forall A g, part_of A U g -> all_finite A). { intros A g PA a b Ha Hb Hab. pose proof PA as (_ & _ & _ & RgA & EA). rewrite <- EA by assumption. apply Fu; auto. intros H. apply Hab. now apply (part_inj A U g PA). }
  pose proof (Sub D f P) as Fd. pose proof (part_le D U f P) as Hle.
  destruct (C02_serial_neighbours_are_nearest argpart AP sparse D k metric se rps Hv) as (o & Ho & L & Nk & K); [lia|now left|assumption|].
  destruct (C02_serial_neighbours_are_nearest argpart' AP' sparse' U k metric se' rps' Hv) as (o' & Ho' & L' & Nk' & K'); [lia|now left|assumption|].
  exists o, o'. split; [exact Ho|]. split; [exact Ho'|]. intros i Hi.
  assert (Cv : forall (A : arr2 f64) a l, nrow A = ncol A -> all_finite A -> a < nrow A -> k < nrow A ->
    knn_list (fun x y => nearer metric (eff metric A a x) (eff metric A a y)) (ncol A) (Nat.min k (ncol A - 1)) l -> knn_list (rankm metric A a) (nrow A) k l).
  { intros A a l Sq Fa Ha Hka. rewrite <- Sq, Nat.min_l by lia. intros [l1 l2 l3 l4 l5]. constructor; [exact l1|exact l2|exact l3| |].
    - intros x y Hx Hy. unfold rankm. rewrite <- !eff_rank by (auto; apply l3, nth_In; lia). now apply l4.
    - intros x y Hx Hn Hy. unfold rankm. rewrite <- !eff_rank by auto. now apply l5. }
  assert (KD : forall a, a < nrow D -> knn_list (rankm metric D a) (nrow D) k (nth a (out_Dk o) [])) by (intros; apply Cv; auto).
  assert (KU : forall a, a < nrow U -> knn_list (rankm metric U a) (nrow U) k (nth a (out_Dk o') [])) by (intros; apply Cv; auto; lia).
  assert (Lists : forall a, a < nrow D -> nth (f a) (out_Dk o') [] = map f (nth a (out_Dk o) [])).
  { intros a Ha. apply (same_group_list metric D U f k a P Is Fd Ha Hk Un); [now apply KD|apply KU; auto]. }
  assert (RgD : forall y, In y (concat (out_Dk o)) -> y < nrow D).
  { intros y Hy. apply in_concat in Hy as (l & Hl & Hy). apply (In_nth _ _ []) in Hl as (a & Ha & <-). apply (knn_range _ _ _ _ (KD a ltac:(lia)) y Hy). }
  assert (RgU : forall y, In y (concat (out_Dk o')) -> y < nrow U).
  { intros y Hy. apply in_concat in Hy as (l & Hl & Hy). apply (In_nth _ _ []) in Hl as (a & Ha & <-). apply (knn_range _ _ _ _ (KU a ltac:(lia)) y Hy). }
  pose proof (Rg i Hi) as Hfi. rewrite Nk, Nk', <- Sd, <- Su, !bincount_nth by assumption. rewrite !count_concat, L, L'.
  apply (sum_group D U f _ _ P).
  - intros a Ha. rewrite Lists by exact Ha. pose proof (knn_range _ _ _ _ (KD a Ha)) as R. revert R. generalize (nth a (out_Dk o) []). induction l as [|z l IH]; intros R; [reflexivity|].
    cbn [map count_occ]. rewrite IH by (intros x Hx; apply R; now right). destruct (Nat.eq_dec (f z) (f i)) as [Q|Q], (Nat.eq_dec z i) as [Q'|Q']; auto.
    + exfalso. apply Q'. apply (part_inj D U f P); auto. apply R. now left.
    + exfalso. apply Q. now f_equal.
  - intros y Hy Ho''. apply count_occ_not_In. intros Hin. destruct (Oth y Hy Ho'') as (D' & f' & P' & Is' & Hk' & (j & Hj & Ej) & Dis). subst y.
    destruct (KU (f' j) Hy) as [q1 q2 q3 q4 q5].
    apply (stays_inside metric D' U f' k j _ (f i) P' Is' (Sub D' f' P') Hj Hk' (Build_kset _ _ _ _ q1 q2 q3 q5) Hin). intros b Hb Q. now apply (Dis i b Hi Hb).
Qed.

(** ** The occurrences of a group stay in the group *)
Lemma count_members (m : list nat) : NoDup m -> forall l,
  list_sum (map (count_occ Nat.eq_dec l) m) = length (filter (fun z => if in_dec Nat.eq_dec z m then true else false) l).
Proof.
  induction 1 as [|x m Hx Nd IH]; intros l.
  - cbn [map]. induction l as [|z l IHl]; [reflexivity|exact IHl].
  - cbn [map]. change (list_sum (?a :: ?r)) with (a + list_sum r). rewrite IH. clear IH. induction l as [|z l IHl]; [reflexivity|]. cbn [filter count_occ].
    destruct (Nat.eq_dec z x) as [Q|Q]; destruct (in_dec Nat.eq_dec z m) as [A|A]; destruct (in_dec Nat.eq_dec z (x :: m)) as [B|B];
      try (exfalso; cbn [In] in B; subst; intuition congruence); cbn [length]; lia.
Qed.
Lemma filter_concat (p : nat -> bool) (L : list (list nat)) : length (filter p (concat L)) = list_sum (map (fun y => length (filter p (nth y L []))) (seq 0 (length L))).
Proof.
  induction L as [|l L IH]; [reflexivity|]. cbn [concat length seq map nth]. rewrite filter_app, app_length, IH. change (list_sum (?a :: ?r)) with (a + list_sum r).
  f_equal. now rewrite <- seq_shift, map_map.
Qed.
Lemma filter_same (p : nat -> bool) l : (forall x, In x l -> p x = true) -> filter p l = l.
Proof. induction l as [|a l IH]; intros H; [reflexivity|]. cbn [filter]. rewrite H by now left. f_equal. apply IH. intros x Hx. apply H. now right. Qed.
Lemma list_sum_const (c : nat) (l : list nat) : list_sum (map (fun _ => c) l) = length l * c.
Proof. induction l as [|a l IH]; [reflexivity|]. cbn [map length]. change (list_sum (?a :: ?r)) with (a + list_sum r). rewrite IH. lia. Qed.

Theorem C203_group_total :
  forall (argpart' : list f64 -> list nat -> list nat), argpart_ok argpart' ->
  forall sparse' (D U : arr2 f64) f (k : nat) metric se' rps',
    valid_metric metric = true -> part_of D U f -> isolated metric D U f -> all_finite U -> k < nrow D ->
    (forall y, y < nrow U -> outsider D f y -> in_other_group metric D U f k y) ->
    (forall i, i < nrow U -> Permutation (rps' i) (seq 0 (ncol U))) ->
    exists o', hubness_serial argpart' sparse' U (Z.of_nat k) metric se' rps' = Ok o' /\
      list_sum (map (fun i => nth (f i) (out_Nk o') 0) (seq 0 (nrow D))) = nrow D * k.
Proof.
  intros argpart' AP' sparse' D U f k metric se' rps' Hv P Is Fu Hk Oth Hrp'. pose proof P as (Sd & Su & Mo & Rg & E).
  assert (Sub : forall A g, part_of A U g -> all_finite A). { intros A g PA a b Ha Hb Hab. pose proof PA as (_ & _ & _ & RgA & EA). rewrite <- EA by assumption. apply Fu; auto. intros H. apply Hab. now apply (part_inj A U g PA). }
  pose proof (part_le D U f P) as Hle.
  destruct (C02_serial_neighbours_are_nearest argpart' AP' sparse' U k metric se' rps' Hv) as (o' & Ho' & L' & Nk' & K'); [lia|now left|assumption|].
  exists o'. split; [exact Ho'|].
  assert (KU : forall a, a < nrow U -> kset (rankm metric U a) (nrow U) k (nth a (out_Dk o') [])).
  { intros a Ha. specialize (K' a Ha). cbv beta in K'. rewrite <- Su, Nat.min_l in K' by lia. destruct K' as [l1 l2 l3 l4 l5]. constructor; [exact l1|exact l2|exact l3|].
    intros x y Hx Hn Hy. unfold rankm. rewrite <- !eff_rank by auto. now apply l5. }
  assert (RgU : forall y, In y (concat (out_Dk o')) -> y < nrow U).
  { intros y Hy. apply in_concat in Hy as (l & Hl & Hy). apply (In_nth _ _ []) in Hl as (a & Ha & <-). destruct (KU a ltac:(lia)) as [_ _ R _]. now apply R. }
  rewrite (map_ext_in _ (fun i => count_occ Nat.eq_dec (concat (out_Dk o')) (f i))).
  2:{ intros i Hi. apply in_seq in Hi. pose proof (Rg i ltac:(lia)). rewrite Nk', <- Su, bincount_nth by assumption. reflexivity. }
  rewrite <- (map_map f (count_occ Nat.eq_dec (concat (out_Dk o')))), (count_members _ (map_f_nodup D U f P)), filter_concat, L'.
  rewrite (sum_group D U f _ (fun _ => k) P); [now rewrite list_sum_const, seq_length| |].
  - intros a Ha. pose proof (KU (f a) (Rg a Ha)) as KS. cbv beta. rewrite filter_same; [exact (ks_len _ _ _ _ KS)|]. intros x Hx.
    destruct (in_dec Nat.eq_dec x (map f (seq 0 (nrow D)))) as [|N]; [reflexivity|]. exfalso.
    apply (stays_inside metric D U f k a _ x P Is (Sub D f P) Ha Hk KS Hx). intros j Hj Q. apply N, in_map_iff. exists j. split; [exact Q|apply in_seq; lia].
  - intros y Hy Ho''. destruct (filter _ _) as [|x l] eqn:F; [reflexivity|]. exfalso. assert (Hx : In x (x :: l)) by now left. rewrite <- F in Hx. apply filter_In in Hx as (Hx & Q).
    destruct (in_dec Nat.eq_dec x (map f (seq 0 (nrow D)))) as [I|]; [|discriminate]. apply in_map_iff in I as (i & <- & Hi). apply in_seq in Hi.
    destruct (Oth y Hy Ho'') as (D' & f' & P' & Is' & Hk' & (j & Hj & Ej) & Dis). subst y.
    apply (stays_inside metric D' U f' k j _ (f i) P' Is' (Sub D' f' P') Hj Hk' (KU (f' j) Hy) Hx). intros b Hb Q'. apply (Dis i b); auto; lia.
Qed.

(** ** The same for every outcome of the worker pool *)
Theorem C203_parallel :
  forall (argpart argpart' : list f64 -> list nat -> list nat), argpart_ok argpart -> argpart_ok argpart' ->
  forall sparse sparse' (D U : arr2 f64) f (k : nat) metric se se' rps rps' r r',
    valid_metric metric = true -> part_of D U f -> isolated metric D U f -> all_finite U -> k < nrow D ->
    (forall y, y < nrow U -> outsider D f y -> in_other_group metric D U f k y) ->
    (forall i, i < nrow D -> Permutation (rps i) (seq 0 (ncol D))) ->
    (forall i, i < nrow U -> Permutation (rps' i) (seq 0 (ncol U))) ->
    hubness_parallel argpart sparse D (Z.of_nat k) metric se rps false r ->
    hubness_parallel argpart' sparse' U (Z.of_nat k) metric se' rps' false r' ->
    exists o o', r = Ok o /\ r' = Ok o' /\
      list_sum (map (fun i => nth (f i) (out_Nk o') 0) (seq 0 (nrow D))) = nrow D * k /\
      (untied D -> forall i, i < nrow D -> nth (f i) (out_Nk o') 0 = nth i (out_Nk o) 0).
Proof.
  intros argpart argpart' AP AP' sparse sparse' D U f k metric se se' rps rps' r r' Hv P Is Fu Hk Oth Hrp Hrp' Hr Hr'. pose proof P as (Sd & Su & _).
  destruct (C04_parallel_equals_serial argpart AP sparse D (Z.of_nat k) metric se rps (or_introl Sd) Hrp) as (Q & _). apply Q in Hr.
  destruct (C04_parallel_equals_serial argpart' AP' sparse' U (Z.of_nat k) metric se' rps' (or_introl Su) Hrp') as (Q' & _). apply Q' in Hr'.
  destruct (C203_group_total argpart' AP' sparse' D U f k metric se' rps' Hv P Is Fu Hk Oth Hrp') as (o' & Ho' & T).
  destruct (C02_serial_neighbours_are_nearest argpart AP sparse D k metric se rps Hv) as (o & Ho & _); [lia|now left|assumption|].
  exists o, o'. split; [congruence|]. split; [congruence|]. split; [exact T|]. intros Un.
  destruct (C203_occurrences argpart argpart' AP AP' sparse sparse' D U f k metric se se' rps rps' Hv P Is Fu Un Hk Oth Hrp Hrp') as (o1 & o1' & H1 & H1' & R).
  rewrite Ho in H1. rewrite Ho' in H1'. injection H1 as <-. injection H1' as <-. exact R.
Qed.

(** ** The hypotheses can be met: the two halves of six points on a line
    (the same [U], [D] and [f] meet the other hypotheses by [C198_case]) *)
Example C203_case : let U := line_at [0; 1; 3; 100; 101; 104]%Z in let D := line_at [100; 101; 104]%Z in
  forall y, y < nrow U -> outsider D (fun i => 3 + i) y -> in_other_group "distance" D U (fun i => 3 + i) 2 y.
Proof.
  cbv zeta. intros y Hy Ho. exists (line_at [0; 1; 3]%Z), (fun i => i). cbn [line_at nrow length] in *.
  assert (Hy3 : y < 3). { destruct (Nat.lt_ge_cases y 3) as [|C]; [assumption|]. exfalso. apply (Ho (y - 3)); cbn [line_at nrow length]; lia. }
  split; [|split; [|split; [lia|split; [exists y; split; [exact Hy3|reflexivity]|intros; lia]]]].
  - split; [reflexivity|]. split; [reflexivity|]. cbn [line_at nrow length]. split; [intros; lia|]. split; [intros; lia|]. intros i j Hi Hj.
    destruct i as [|[|[|i]]], j as [|[|[|j]]]; try lia; reflexivity.
  - intros i j z Hi Hj Hne Hz Hoz. cbn [line_at nrow length] in *. assert (Hz3 : 3 <= z < 6). { destruct (Nat.lt_ge_cases z 3) as [C|C]; [|lia]. exfalso. now apply (Hoz z). }
    clear Hoz Hz. destruct i as [|[|[|i]]], j as [|[|[|j]]], z as [|[|[|[|[|[|z]]]]]]; try lia; vm_compute; reflexivity.
Qed.

Example C203_case_run : let run X := match hubness_serial ref_argpart false X 1 "distance" false (fun _ => seq 0 (ncol X)) with Ok o => out_Nk o | Raise _ => [] end in
  run (line_at [100; 101; 104]%Z) = [1; 2; 0] /\ run (line_at [0; 1; 3; 100; 101; 104]%Z) = [1; 2; 0; 1; 2; 0].
Proof. cbv zeta. vm_compute. split; reflexivity. Qed.
Example C203_case_parallel : forall X : arr2 f64, nrow X = ncol X ->
  exists r, hubness_parallel ref_argpart false X 2 "distance" false (fun _ => seq 0 (ncol X)) false r.
Proof. intros X Sq. eexists. apply (C04_parallel_equals_serial ref_argpart (ref_argpart_ok f64_cmp)); [now left|auto]. Qed.

Print Assumptions C203_occurrences.
Print Assumptions C203_group_total.
Print Assumptions C203_parallel.
