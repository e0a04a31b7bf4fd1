(** Properties C16 (local_scaling_sample, nicdm_sample) and C52-C54
    (unchecked arguments of local_scaling and nicdm). *)
From Coq Require Import String.
From Coq Require Import ZArith Reals Lra List Arith Lia Bool Permutation.
From Verif Require Import Py Num NumT Arr Sort Conc S_Neighbors S_LS M_IO M_Hubness M_SNN M_LS.
From Verif Require Import P_Neighbors P_Hubness P_MPEmpiric P_MPEmpiric2 P_SNN P_LS P_LS2 P_LS3 P_NICDM P_LSSample.
Import ListNotations.
Local Open Scope nat_scope.

Lemma sample_checks {V} (D : arr2 V) (train : list nat) : ncol D <= nrow D -> length train = ncol D ->
  check_sample_shape_fits (Dense [nrow D; ncol D]) (Dense [length train]) = Ok tt.
Proof.
  intros Hn Hl. unfold check_sample_shape_fits, guard, dim0, dim1, size_of. simpl.
  replace (nrow D <? ncol D) with false by (symmetry; apply Nat.ltb_ge; lia).
  now rewrite Nat.mul_1_r, Hl, Nat.eqb_refl.
Qed.

Lemma ls_sample_spec part (D : arr2 xr) train k test :
  part_ok part -> ncol D <= nrow D -> length train = ncol D -> NoDup train ->
  (forall s, In s train -> s < nrow D) -> match test with None => True | Some t => forall s, In s t -> s < nrow D end ->
  (forall i j, i < nrow D -> j < ncol D -> nth j train 0 <> i -> nisfin (at2 D i j) = true) ->
  0 < k < length train ->
  exists L (r : nat -> R),
    local_scaling_sample xexp part D (Z.of_nat k) "distance" train test = Ok L /\
    nrow L = (match test with None => nrow D | Some t => length t end) /\ ncol L = ncol D /\
    (forall i, i < nrow D -> kth_smallest (sample_others D train i) k (XFin (r i))) /\
    forall a j, a < nrow L -> j < ncol D ->
      let i := match test with None => a | Some t => nth a t 0 end in
      at2 L a j =
        if (match test with None => i =? j | Some _ => nth j train 0 =? i end) then XFin 0
        else ls_val xexp "distance" (if nth j train 0 =? i then XPInf else at2 D i j) (XFin (r i)) (XFin (r (nth j train 0%nat))).
Proof.
  intros PO Hn Hl Nd Ht Hte Hf Hk. unfold local_scaling_sample. rewrite sample_checks by assumption. cbn [bind].
  change (check_valid_metric_parameter "distance") with (@Ok unit tt). cbn [bind].
  change (guard (is_sim "distance") NotImplementedError) with (@Ok unit tt). cbn [bind].
  rewrite (proj2 (existsb_ge_false (nrow D) train) Ht). cbn [guard bind].
  assert (A : forall i, i < nrow D -> exists v, ls_radius part (set_cells train ninf D) (seq 0 (ncol D)) (Z.of_nat k - 1) i = Ok v /\
      kth_smallest (sample_others D train i) k v).
  { intros i Hi. rewrite <- Hl. apply (ls_radius_sample xr_cmp part PO); auto. intros x Hx. apply sample_others_in in Hx.
    destruct Hx as (j & Hj & Hne & ->). apply Hf; auto. lia. }
  destruct (mapM_all (ls_radius part (set_cells train ninf D) (seq 0 (ncol D)) (Z.of_nat k - 1)) (seq 0 (nrow D))) as (rs & E).
  { intros i Hi. apply in_seq in Hi. destruct (A i) as (v & Ev & _); [lia|]. now exists v. }
  rewrite E. cbn [bind].
  set (r := fun i => match nth i rs XNaN with XFin x => x | _ => 0%R end).
  assert (K : forall i, i < nrow D -> kth_smallest (sample_others D train i) k (nth i rs XNaN)).
  { intros i Hi. destruct (A i Hi) as (v & Ev & Kv). apply (mapM_nth _ _ _ i 0 XNaN) in E; [|now rewrite seq_length].
    rewrite seq_nth in E by assumption. simpl (0 + i) in E. rewrite Ev in E. injection E as E. rewrite <- E. exact Kv. }
  assert (Er : forall i, i < nrow D -> nth i rs XNaN = XFin (r i)).
  { intros i Hi. unfold r. destruct (K i Hi) as (Kin & _). apply sample_others_in in Kin.
    destruct Kin as (j & Hj & Hne & Ej). assert (F : nisfin (at2 D i j) = true) by (apply Hf; auto; lia). rewrite <- Ej in F.
    change (xisfin (nth i rs XNaN) = true) in F. destruct (nth i rs XNaN); try discriminate. reflexivity. }
  assert (G : guard match test with None => false | Some t => existsb (fun i : nat => nrow D <=? i) t end IndexError = Ok tt).
  { destruct test as [t|]; [|reflexivity]. now rewrite (proj2 (existsb_ge_false (nrow D) t) Hte). }
  rewrite G. cbn [bind].
  destruct (sample_matrix D train test (fun i j => ls_val xexp "distance" (at2 (set_cells train ninf D) i j) (nth i rs nnan) (nth (nth j train 0) rs nnan)) Hl Hte)
    as (L & EL & R1 & R2 & AL).
  exists L, r. split; [exact EL|]. split; [destruct test; [exact R1|rewrite R1, seq_length; reflexivity]|]. split; [exact R2|].
  split; [intros i Hi; rewrite <- Er by assumption; auto|].
  intros a j Ha Hj. set (i := match test with None => a | Some t => nth a t 0 end). rewrite AL by assumption.
  assert (Hi : i < nrow D).
  { unfold i. destruct test as [t|]; [apply Hte, nth_In; now rewrite R1 in Ha|]. now rewrite R1, seq_length in Ha. }
  assert (Hj' : nth j train 0 < nrow D) by (apply Ht, nth_In; lia).
  assert (EV : ls_val xexp "distance" (at2 (set_cells train ninf D) i j) (nth i rs nnan) (nth (nth j train 0) rs nnan) =
    ls_val xexp "distance" (if nth j train 0 =? i then XPInf else at2 D i j) (XFin (r i)) (XFin (r (nth j train 0%nat)))).
  { rewrite set_cells_at, Hl. replace (j <? ncol D) with true by (symmetry; apply Nat.ltb_lt; lia). cbn [andb].
    rewrite (Nat.eqb_sym i). change (@nnan xr Num_xr) with XNaN. rewrite !Er by assumption. reflexivity. }
  unfold i in *. destruct test as [t|]; rewrite EV; reflexivity.
Qed.

(** ** C16 for local_scaling_sample.  [r i] is the k-th smallest distance of i
    to the sample objects other than i.  Without test_ind (result L) the zero is
    at (j, j) for every j; the true self cell (train_j, j) off that diagonal
    gets the maximal distance 1.  With test_ind (result L') the self cells are
    right. *)
Theorem C16_ls_sample_self_cells :
  forall part (D : arr2 xr) train k,
    part_ok part -> ncol D <= nrow D -> length train = ncol D -> NoDup train ->
    (forall s, In s train -> s < nrow D) ->
    (forall i j, i < nrow D -> j < ncol D -> nth j train 0 <> i -> nisfin (at2 D i j) = true) ->
    0 < k < length train ->
    exists L L' (r : nat -> R),
      local_scaling_sample xexp part D (Z.of_nat k) "distance" train None = Ok L /\
      local_scaling_sample xexp part D (Z.of_nat k) "distance" train (Some (seq 0 (nrow D))) = Ok L' /\
      nrow L = nrow D /\ ncol L = ncol D /\ nrow L' = nrow D /\ ncol L' = ncol D /\
      (forall i, i < nrow D -> kth_smallest (sample_others D train i) k (XFin (r i))) /\
      (forall j, j < ncol D -> at2 L j j = XFin 0) /\
      (forall j, j < ncol D -> nth j train 0 <> j -> (0 < r (nth j train 0%nat))%R -> at2 L (nth j train 0) j = XFin 1) /\
      (forall j, j < ncol D -> at2 L' (nth j train 0) j = XFin 0) /\
      (forall i j, i < nrow D -> j < ncol D -> nth j train 0 <> i ->
         (r i * r (nth j train 0%nat) <> 0)%R ->
         let value := XFin (1 - exp (- (real_at D i j * real_at D i j) / (r i * r (nth j train 0%nat)))) in
         at2 L' i j = value /\ (i <> j -> at2 L i j = value)) /\
      (train = seq 0 (ncol D) -> forall i j, i < nrow D -> j < ncol D -> at2 L i j = at2 L' i j).
Proof.
  intros part D train k PO Hn Hl Nd Ht Hf Hk.
  destruct (ls_sample_spec part D train k None PO Hn Hl Nd Ht I Hf Hk) as (L & r & E & R1 & R2 & K & A).
  destruct (ls_sample_spec part D train k (Some (seq 0 (nrow D))) PO Hn Hl Nd Ht) as (L' & r' & E' & R1' & R2' & K' & A'); auto.
  { intros s Hs. apply in_seq in Hs. lia. }
  rewrite seq_length in R1'.
  assert (Er : forall i, i < nrow D -> r' i = r i).
  { intros i Hi. enough (Q : XFin (r' i) = XFin (r i)) by now injection Q. eapply kth_smallest_unique; [apply K'|apply K]; assumption. }
  assert (Tj : forall j, j < ncol D -> nth j train 0 < nrow D) by (intros j Hj; apply Ht, nth_In; lia).
  assert (B : forall i j, i < nrow D -> j < ncol D -> at2 L i j = if i =? j then XFin 0 else
     ls_val xexp "distance" (if nth j train 0 =? i then XPInf else at2 D i j) (XFin (r i)) (XFin (r (nth j train 0%nat)))).
  { intros i j Hi Hj. rewrite A by (rewrite ?R1; assumption). reflexivity. }
  assert (B' : forall i j, i < nrow D -> j < ncol D -> at2 L' i j = if nth j train 0 =? i then XFin 0 else
     ls_val xexp "distance" (at2 D i j) (XFin (r i)) (XFin (r (nth j train 0%nat)))).
  { intros i j Hi Hj. rewrite A' by (rewrite ?R1'; assumption). cbv zeta. rewrite seq_nth by assumption. simpl (0 + i).
    rewrite !Er by auto. destruct (nth j train 0 =? i); reflexivity. }
  assert (Val : forall i j, i < nrow D -> j < ncol D -> nth j train 0 <> i -> (r i * r (nth j train 0%nat) <> 0)%R ->
     ls_val xexp "distance" (at2 D i j) (XFin (r i)) (XFin (r (nth j train 0%nat))) =
     XFin (1 - exp (- (real_at D i j * real_at D i j) / (r i * r (nth j train 0%nat))))).
  { intros i j Hi Hj Hne Hp. assert (F := Hf i j Hi Hj Hne). unfold real_at. simpl in F. destruct (at2 D i j); try discriminate.
    unfold ls_val. simpl. destruct (Req_EM_T _ 0); [contradiction|]. simpl. f_equal. unfold Rminus. do 4 f_equal. ring. }
  exists L, L', r. split; [exact E|]. split; [exact E'|]. repeat (split; [assumption|]).
  split; [intros j Hj; rewrite B by lia; now rewrite Nat.eqb_refl|].
  split.
  { intros j Hj Hne Hp. rewrite B by auto. destruct (Nat.eqb_spec (nth j train 0) j); [contradiction|]. rewrite Nat.eqb_refl.
    unfold ls_val. simpl. replace (xinf_s (rsgn (-1))) with XNInf.
    - simpl. destruct (Rlt_dec _ 0) as [L0|]; [nra|]. simpl. f_equal. ring.
    - unfold rsgn. destruct (Rlt_dec (-1) 0); [reflexivity|lra]. }
  split; [intros j Hj; rewrite B' by auto; now rewrite Nat.eqb_refl|].
  split.
  { intros i j Hi Hj Hne Hp value. split.
    - rewrite B' by assumption. destruct (Nat.eqb_spec (nth j train 0) i); [contradiction|]. now apply Val.
    - intros Hij. rewrite B by assumption. destruct (Nat.eqb_spec i j); [contradiction|].
      destruct (Nat.eqb_spec (nth j train 0) i); [contradiction|]. now apply Val. }
  intros Eq i j Hi Hj. rewrite B, B' by assumption. rewrite Eq, seq_nth by assumption. simpl (0 + j).
  rewrite (Nat.eqb_sym j i). destruct (i =? j); reflexivity.
Qed.

Lemma nicdm_sample_spec part (D : arr2 xr) train k test :
  part_ok part -> ncol D <= nrow D -> length train = ncol D -> NoDup train ->
  (forall s, In s train -> s < nrow D) -> match test with None => True | Some t => forall s, In s t -> s < nrow D end ->
  (forall i j, i < nrow D -> j < ncol D -> nth j train 0 <> i -> nisfin (at2 D i j) = true) ->
  0 < k < length train ->
  exists L (r : nat -> R),
    nicdm_sample xexp xln xsum part D (Z.of_nat k) "distance" train test = Ok L /\
    nrow L = (match test with None => nrow D | Some t => length t end) /\ ncol L = ncol D /\
    (forall i, i < nrow D -> exists s, k_smallest (sample_others D train i) k s /\ r i = (rsum (map fin_of s) / INR k)%R) /\
    forall a j, a < nrow L -> j < ncol D ->
      let i := match test with None => a | Some t => nth a t 0 end in
      at2 L a j =
        if (match test with None => i =? j | Some _ => nth j train 0 =? i end) then XFin 0
        else nicdm_val (local_geomean xexp xln xsum (map XFin (map r (seq 0 (nrow D)))))
               (if nth j train 0 =? i then XPInf else at2 D i j) (XFin (r i)) (XFin (r (nth j train 0%nat))).
Proof.
  intros PO Hn Hl Nd Ht Hte Hf Hk. unfold nicdm_sample. rewrite sample_checks by assumption. cbn [bind].
  change (check_valid_metric_parameter "distance") with (@Ok unit tt). cbn [bind].
  change (guard (is_sim "distance") NotImplementedError) with (@Ok unit tt). cbn [bind].
  rewrite (proj2 (existsb_ge_false (nrow D) train) Ht). cbn [guard bind].
  assert (Fo : forall i, i < nrow D -> forall x, In x (sample_others D train i) -> nisfin x = true).
  { intros i Hi x Hx. apply sample_others_in in Hx. destruct Hx as (j & Hj & Hne & ->). apply Hf; auto. lia. }
  assert (A : forall i, i < nrow D -> exists s, nicdm_radius xsum part (set_cells train ninf D) (seq 0 (ncol D)) (Z.of_nat k) i
        = Ok (XFin (rsum (map fin_of s) / INR k)) /\ k_smallest (sample_others D train i) k s).
  { intros i Hi. rewrite <- Hl. destruct (nicdm_radius_sample xr_cmp part PO xsum D train k i Nd (Fo i Hi) Hk) as (s & Es & Ks).
    exists s. split; [|assumption]. rewrite Es. f_equal. assert (Ls : length s = k) by apply Ks.
    rewrite vmean_fin; [now rewrite Ls| |].
    - intros ->. simpl in Ls. lia.
    - intros x Hx. apply (Fo i Hi). now apply (k_smallest_incl _ _ _ _ Ks). }
  set (r := fun i => match nicdm_radius xsum part (set_cells train ninf D) (seq 0 (ncol D)) (Z.of_nat k) i with Ok v => fin_of v | _ => 0%R end).
  assert (E : mapM (nicdm_radius xsum part (set_cells train ninf D) (seq 0 (ncol D)) (Z.of_nat k)) (seq 0 (nrow D)) =
     Ok (map XFin (map r (seq 0 (nrow D))))).
  { assert (E : forall l, (forall i, In i l -> i < nrow D) ->
       mapM (nicdm_radius xsum part (set_cells train ninf D) (seq 0 (ncol D)) (Z.of_nat k)) l = Ok (map XFin (map r l))).
    { induction l as [|i l IH]; [reflexivity|]. intros Hl'. cbn [mapM map]. rewrite IH by (intros; apply Hl'; now right).
      unfold r at 2. destruct (A i (Hl' i (or_introl eq_refl))) as (s & Es & _). rewrite Es. reflexivity. }
    apply E. intros i Hi. apply in_seq in Hi. lia. }
  rewrite E. cbn [bind].
  assert (G : guard match test with None => false | Some t => existsb (fun i : nat => nrow D <=? i) t end IndexError = Ok tt).
  { destruct test as [t|]; [|reflexivity]. now rewrite (proj2 (existsb_ge_false (nrow D) t) Hte). }
  rewrite G. cbn [bind].
  destruct (sample_matrix D train test (fun i j => nicdm_val (local_geomean xexp xln xsum (map XFin (map r (seq 0 (nrow D)))))
     (at2 (set_cells train ninf D) i j) (nth i (map XFin (map r (seq 0 (nrow D)))) nnan) (nth (nth j train 0) (map XFin (map r (seq 0 (nrow D)))) nnan)) Hl Hte)
    as (L & EL & R1 & R2 & AL).
  exists L, r. split; [exact EL|]. split; [destruct test; [exact R1|rewrite R1, seq_length; reflexivity]|]. split; [exact R2|].
  split.
  { intros i Hi. destruct (A i Hi) as (s & Es & Ks). exists s. split; [assumption|]. unfold r. now rewrite Es. }
  intros a j Ha Hj. set (i := match test with None => a | Some t => nth a t 0 end). rewrite AL by assumption.
  assert (Hi : i < nrow D).
  { unfold i. destruct test as [t|]; [apply Hte, nth_In; now rewrite R1 in Ha|]. now rewrite R1, seq_length in Ha. }
  assert (Hj' : nth j train 0 < nrow D) by (apply Ht, nth_In; lia).
  assert (En : forall b, b < nrow D -> nth b (map XFin (map r (seq 0 (nrow D)))) nnan = XFin (r b)).
  { intros b Hb. rewrite map_map. now rewrite nth_map_seq. }
  assert (EV : forall g, nicdm_val g (at2 (set_cells train ninf D) i j) (nth i (map XFin (map r (seq 0 (nrow D)))) nnan) (nth (nth j train 0) (map XFin (map r (seq 0 (nrow D)))) nnan) =
    nicdm_val g (if nth j train 0 =? i then XPInf else at2 D i j) (XFin (r i)) (XFin (r (nth j train 0%nat)))).
  { intros g. rewrite set_cells_at, Hl. replace (j <? ncol D) with true by (symmetry; apply Nat.ltb_lt; lia). cbn [andb].
    rewrite (Nat.eqb_sym i). rewrite !En by assumption. reflexivity. }
  unfold i in *. destruct test as [t|]; rewrite EV; reflexivity.
Qed.

(** ** C16 for nicdm_sample: the misplaced self cells get +infinity *)
Theorem C16_nicdm_sample_self_cells :
  forall part (D : arr2 xr) train k,
    part_ok part -> ncol D <= nrow D -> length train = ncol D -> NoDup train ->
    (forall s, In s train -> s < nrow D) ->
    (forall i j, i < nrow D -> j < ncol D -> nth j train 0 <> i -> nisfin (at2 D i j) = true) ->
    0 < k < length train ->
    exists L L' (r : nat -> R),
      nicdm_sample xexp xln xsum part D (Z.of_nat k) "distance" train None = Ok L /\
      nicdm_sample xexp xln xsum part D (Z.of_nat k) "distance" train (Some (seq 0 (nrow D))) = Ok L' /\
      nrow L = nrow D /\ ncol L = ncol D /\ nrow L' = nrow D /\ ncol L' = ncol D /\
      (forall i, i < nrow D -> exists s, k_smallest (sample_others D train i) k (map XFin s) /\
         r i = (fold_right Rplus 0 s / INR k)%R) /\
      (forall j, j < ncol D -> at2 L j j = XFin 0) /\
      (forall j, j < ncol D -> at2 L' (nth j train 0) j = XFin 0) /\
      ((forall i, i < nrow D -> (0 < r i)%R) ->
       let g := exp (fold_right Rplus 0%R (map (fun i => ln (r i)) (seq 0 (nrow D))) / INR (nrow D)) in
       (forall j, j < ncol D -> nth j train 0 <> j -> at2 L (nth j train 0) j = XPInf) /\
       (forall i j, i < nrow D -> j < ncol D -> nth j train 0 <> i ->
         let value := XFin (g * real_at D i j / sqrt (r i * r (nth j train 0%nat))) in
         at2 L' i j = value /\ (i <> j -> at2 L i j = value))) /\
      (train = seq 0 (ncol D) -> forall i j, i < nrow D -> j < ncol D -> at2 L i j = at2 L' i j).
Proof.
  intros part D train k PO Hn Hl Nd Ht Hf Hk.
  destruct (nicdm_sample_spec part D train k None PO Hn Hl Nd Ht I Hf Hk) as (L & r & E & R1 & R2 & K & A).
  destruct (nicdm_sample_spec part D train k (Some (seq 0 (nrow D))) PO Hn Hl Nd Ht) as (L' & r' & E' & R1' & R2' & K' & A'); auto.
  { intros s Hs. apply in_seq in Hs. lia. }
  rewrite seq_length in R1'.
  assert (Fo : forall i, i < nrow D -> forall x, In x (sample_others D train i) -> nisfin x = true).
  { intros i Hi x Hx. apply sample_others_in in Hx. destruct Hx as (j & Hj & Hne & ->). apply Hf; auto. lia. }
  assert (Er : forall i, i < nrow D -> r' i = r i).
  { intros i Hi. destruct (K i Hi) as (s & Ks & ->), (K' i Hi) as (s' & Ks' & ->).
    now rewrite (k_smallest_sum _ _ _ _ (Fo i Hi) Ks' Ks). }
  assert (Eg : map r' (seq 0 (nrow D)) = map r (seq 0 (nrow D))).
  { apply map_ext_in. intros i Hi. apply in_seq in Hi. apply Er. lia. }
  assert (Tj : forall j, j < ncol D -> nth j train 0 < nrow D) by (intros j Hj; apply Ht, nth_In; lia).
  set (G := local_geomean xexp xln xsum (map XFin (map r (seq 0 (nrow D))))) in *.
  assert (B : forall i j, i < nrow D -> j < ncol D -> at2 L i j = if i =? j then XFin 0 else
     nicdm_val G (if nth j train 0 =? i then XPInf else at2 D i j) (XFin (r i)) (XFin (r (nth j train 0%nat)))).
  { intros i j Hi Hj. rewrite A by (rewrite ?R1; assumption). reflexivity. }
  assert (B' : forall i j, i < nrow D -> j < ncol D -> at2 L' i j = if nth j train 0 =? i then XFin 0 else
     nicdm_val G (at2 D i j) (XFin (r i)) (XFin (r (nth j train 0%nat)))).
  { intros i j Hi Hj. rewrite A' by (rewrite ?R1'; assumption). cbv zeta. rewrite seq_nth by assumption. simpl (0 + i).
    rewrite Eg. fold G. rewrite !Er by auto. destruct (nth j train 0 =? i); reflexivity. }
  exists L, L', r. split; [exact E|]. split; [exact E'|]. repeat (split; [assumption|]).
  split.
  { intros i Hi. destruct (K i Hi) as (s & Ks & Es). exists (map fin_of s). split; [|exact Es].
    rewrite <- fin_list; [exact Ks|]. intros x Hx. apply (Fo i Hi). now apply (k_smallest_incl _ _ _ _ Ks). }
  split; [intros j Hj; rewrite B by lia; now rewrite Nat.eqb_refl|].
  split; [intros j Hj; rewrite B' by auto; now rewrite Nat.eqb_refl|].
  split.
  { intros Hp g.
    assert (EG : G = XFin g).
    { unfold G. rewrite geomean_pos.
      - rewrite map_length, seq_length, map_map. reflexivity.
      - destruct (nrow D); [destruct train; simpl in *; lia|discriminate].
      - intros x Hx. apply in_map_iff in Hx. destruct Hx as (a & <- & Ha). apply Hp. apply in_seq in Ha. lia. }
    assert (Sq : forall i j, i < nrow D -> j < nrow D -> (0 < sqrt (r i * r j))%R).
    { intros i j Hi Hj. apply sqrt_lt_R0, Rmult_lt_0_compat; auto. }
    assert (Nn : forall i j, i < nrow D -> j < nrow D -> ~ (r i * r j < 0)%R).
    { intros i j Hi Hj. pose proof (Rmult_lt_0_compat _ _ (Hp i Hi) (Hp j Hj)). lra. }
    assert (Gp : (0 < g)%R) by apply exp_pos.
    split.
    - intros j Hj Hne. rewrite B by auto. destruct (Nat.eqb_spec (nth j train 0) j); [contradiction|]. rewrite Nat.eqb_refl, EG.
      unfold nicdm_val. simpl. rewrite rsgn_pos by assumption. simpl.
      destruct (Rlt_dec _ 0) as [Q|_]; [now apply Nn in Q; auto|]. simpl.
      destruct (Rlt_dec (sqrt _) 0) as [Q|_]; [|reflexivity]. specialize (Sq _ _ (Tj j Hj) (Tj j Hj)). lra.
    - intros i j Hi Hj Hne value.
      assert (Val : nicdm_val G (at2 D i j) (XFin (r i)) (XFin (r (nth j train 0%nat))) = value).
      { assert (F := Hf i j Hi Hj Hne). unfold value, real_at. simpl in F. destruct (at2 D i j); try discriminate.
        rewrite EG. unfold nicdm_val. simpl.
        destruct (Rlt_dec _ 0) as [Q|_]; [now apply Nn in Q; auto|]. simpl.
        destruct (Req_EM_T (sqrt _) 0) as [Q|_]; [|reflexivity]. specialize (Sq _ _ Hi (Tj j Hj)). lra. }
      split.
      + rewrite B' by assumption. destruct (Nat.eqb_spec (nth j train 0) i); [contradiction|]. exact Val.
      + intros Hij. rewrite B by assumption. destruct (Nat.eqb_spec i j); [contradiction|].
        destruct (Nat.eqb_spec (nth j train 0) i); [contradiction|]. exact Val. }
  intros Eq i j Hi Hj. rewrite B, B' by assumption. rewrite Eq, seq_nth by assumption. simpl (0 + j).
  rewrite (Nat.eqb_sym j i). destruct (i =? j); reflexivity.
Qed.

(** ** C52: k is not checked against the number of points.  With k = n (or
    k = 0) the radius is the excluded self entry, +infinity: local scaling maps
    every distance to 0, NICDM with k = n maps every distance to NaN; no error *)
Lemma row_inf (D : arr2 xr) n i : i < n ->
  (forall j, j < n -> j <> i -> nisfin (at2 D i j) = true) ->
  kth_smallest (map (at2 (fill_diagonal D XPInf) i) (seq 0 n)) n XPInf.
Proof.
  intros Hi Hf. split.
  - apply in_map_iff. exists i. split; [cbn [fill_diagonal at2]; now rewrite Nat.eqb_refl|]. apply in_seq. lia.
  - rewrite !filter_map_len. split.
    + rewrite (filter_ext_in _ (fun j => negb (j =? i))).
      * pose proof (others_length (Arr2 n n (fun _ j => j)) (seq 0 n) i (seq_NoDup _ _)) as HL.
        unfold others in HL. rewrite map_length, seq_length in HL.
        enough (S (length (filter (fun j => negb (j =? i)) (seq 0 n))) = n) by lia.
        apply HL. apply in_seq. lia.
      * intros j Hj. apply in_seq in Hj. cbn [fill_diagonal at2]. rewrite (Nat.eqb_sym j i). destruct (Nat.eqb_spec i j); [reflexivity|].
        assert (F : nisfin (at2 D i j) = true) by (apply Hf; lia). simpl in F. now destruct (at2 D i j).
    + rewrite filter_all; [rewrite seq_length; lia|]. intros j Hj. apply in_seq in Hj. cbn [fill_diagonal at2].
      destruct (Nat.eqb_spec i j); [reflexivity|].
      assert (F : nisfin (at2 D i j) = true) by (apply Hf; lia). simpl in F. now destruct (at2 D i j).
Qed.

Theorem C52_ls_k_unchecked :
  forall part (D : arr2 xr) n (k : Z) cpu n_jobs res,
    part_ok part -> nrow D = n -> ncol D = n -> 0 < n ->
    (forall i j, i < n -> j < n -> i <> j -> nisfin (at2 D i j) = true) ->
    (k = Z.of_nat n \/ k = 0%Z) -> (1 <= workers cpu n_jobs)%Z ->
    local_scaling xexp part D k "distance" None cpu n_jobs res ->
    exists L, res = Ok L /\ nrow L = n /\ ncol L = n /\
      forall i j, i < n -> j < n -> at2 L i j = XFin 0.
Proof.
  intros part D n k cpu nj res PO Hr Hc Hn Hf Hk Hw H. subst n. set (n := nrow D) in *.
  set (kth := ls_kth "distance" n k).
  assert (Hkth : kth_legal (length (seq 0 n)) [kth] = true /\ py_norm (length (seq 0 n)) kth = n - 1).
  { rewrite seq_length. unfold kth, ls_kth. change (is_sim "distance") with false. cbv iota. unfold kth_legal, py_norm. cbn [forallb].
    rewrite andb_true_r, andb_true_iff, Z.leb_le, Z.ltb_lt. destruct Hk as [-> | ->].
    - split; [lia|]. destruct (Z.ltb_spec (Z.of_nat n - 1) 0); lia.
    - split; [lia|]. destruct (Z.ltb_spec (0 - 1) 0); lia. }
  destruct Hkth as (Lg & Np).
  assert (A : forall i, i < n -> ls_radius part (fill_diagonal D XPInf) (seq 0 n) kth i = Ok XPInf).
  { intros i Hi. destruct (ls_radius_pos part (fill_diagonal D XPInf) (seq 0 n) kth i PO) as (v & Ev & _ & Kv).
    - intros j Hj. apply in_seq in Hj. cbn [fill_diagonal at2]. destruct (Nat.eqb_spec i j); [discriminate|].
      assert (F : nisfin (at2 D i j) = true) by (apply Hf; lia). simpl in F. now destruct (at2 D i j).
    - exact Lg.
    - rewrite Ev. f_equal. rewrite Np in Kv. replace (S (n - 1)) with n in Kv by lia.
      apply (kth_smallest_unique _ _ _ _ Kv). apply row_inf; auto. }
  assert (E : ls_radii part D k "distance" None = Ok (map (fun _ => XPInf) (seq 0 n))).
  { unfold ls_radii. rewrite (proj2 (check_shape_ok D) (eq_sym Hc)). cbn [bind].
    change (check_valid_metric_parameter "distance") with (@Ok unit tt). cbn [bind ls_train].
    change (ls_exclude "distance") with XPInf. fold n kth.
    rewrite (mapM_ext_in _ (fun _ => Ok XPInf) (seq 0 n)) by (intros i Hi; apply A; apply in_seq in Hi; lia).
    generalize (seq 0 n). induction l as [|a l IH]; [reflexivity|]. cbn [mapM map]. now rewrite IH. }
  apply ls_outcome in H; [|exact Hw]. rewrite E in H. destruct H as (L & -> & R1 & R2 & AL).
  exists L. split; [reflexivity|]. split; [assumption|]. split; [assumption|].
  intros i j Hi Hj. destruct (AL i j Hi Hj) as (A1 & A2). destruct (Nat.eq_dec i j) as [Eij|Eij]; [now rewrite (A1 Eij)|].
  rewrite (maybe0_xr _ _ (A2 Eij)). unfold ls_cell. cbv beta. change (@nnan xr Num_xr) with XNaN. rewrite !nth_map_seq by lia.
  assert (F : nisfin (at2 D (Nat.min i j) (Nat.max i j)) = true) by (apply Hf; lia).
  simpl in F. destruct (at2 D (Nat.min i j) (Nat.max i j)); try discriminate.
  unfold ls_val. simpl. rewrite exp_0. f_equal. ring.
Qed.

Lemma xsum_inf l : (forall x, In x l -> x = XPInf \/ xisfin x = true) -> xsum l = XPInf \/ (exists r, xsum l = XFin r) /\ ~ In XPInf l.
Proof.
  induction l as [|x l IH]; [right; split; [now exists 0%R|intros []]|]. intros H. change (xsum (x :: l)) with (xadd x (xsum l)).
  destruct (IH (fun y Hy => H y (or_intror Hy))) as [-> | ((r & ->) & Hn)]; destruct (H x (or_introl eq_refl)) as [-> | F];
    try (destruct x; try discriminate); simpl; eauto.
  right. split; [eauto|]. intros [G|G]; [discriminate|contradiction].
Qed.
Lemma xsum_inf_in l : (forall x, In x l -> x = XPInf \/ xisfin x = true) -> In XPInf l -> xsum l = XPInf.
Proof. intros H1 H2. destruct (xsum_inf l H1) as [|(_ & Hn)]; [assumption|contradiction]. Qed.

Theorem C52_nicdm_k_equals_n :
  forall part (D : arr2 xr) n cpu n_jobs res,
    part_ok part -> nrow D = n -> ncol D = n -> 0 < n ->
    (forall i j, i < n -> j < n -> i <> j -> nisfin (at2 D i j) = true) ->
    nicdm xexp xln xsum part D (Z.of_nat n) "distance" None cpu n_jobs res ->
    exists L, res = Ok L /\ nrow L = n /\ ncol L = n /\
      forall i j, i < n -> j < n -> i <> j -> at2 L i j = XNaN.
Proof.
  intros part D n cpu nj res PO Hr Hc Hn Hf H. subst n. set (n := nrow D) in *.
  assert (A : forall i, i < n -> nicdm_radius xsum part (fill_diagonal D XPInf) (seq 0 n) (Z.of_nat n) i = Ok XPInf).
  { intros i Hi. unfold nicdm_radius, np_partition. set (l := map (at2 (fill_diagonal D XPInf) i) (seq 0 n)).
    assert (Ll : length l = n) by (unfold l; now rewrite map_length, seq_length).
    assert (Lg : kth_legal (length l) (zarange 0 (Z.of_nat n)) = true).
    { unfold kth_legal, zarange. apply forallb_forall. intros z Hz. apply in_map_iff in Hz.
      destruct Hz as (a & <- & Ha). apply in_seq in Ha. apply andb_true_iff. split; [apply Z.leb_le|apply Z.ltb_lt]; lia. }
    rewrite Lg. cbn [bind]. rewrite zarange_seq, prefix_nat. f_equal.
    assert (IP : is_part l (seq 0 n) (part l (seq 0 n))).
    { apply PO. intros x Hx. apply in_seq in Hx. lia. }
    assert (P : Permutation (part l (seq 0 n)) l).
    { destruct IP as (P & _). exact P || (symmetry; exact P). }
    rewrite firstn_all2 by (rewrite (Permutation_length P); lia).
    unfold vmean. rewrite xsum_inf_in.
    - rewrite (Permutation_length P), Ll. unfold nofnat. simpl. destruct (Rlt_dec _ 0) as [Q|]; [|reflexivity].
      exfalso. revert Q. apply Rle_not_lt, IZR_le. lia.
    - intros x Hx. eapply Permutation_in in Hx; [|exact P]. apply in_map_iff in Hx. destruct Hx as (j & <- & Hj). apply in_seq in Hj.
      cbn [fill_diagonal at2]. destruct (Nat.eqb_spec i j); [now left|right]. apply Hf; lia.
    - eapply Permutation_in; [symmetry; exact P|]. apply in_map_iff. exists i. split; [cbn [fill_diagonal at2]; now rewrite Nat.eqb_refl|].
      apply in_seq. lia. }
  assert (E : nicdm_radii xsum part D (Z.of_nat n) "distance" None = Ok (map (fun _ => XPInf) (seq 0 n))).
  { unfold nicdm_radii. rewrite (proj2 (check_shape_ok D) (eq_sym Hc)). cbn [bind].
    change (check_valid_metric_parameter "distance") with (@Ok unit tt). change (guard (is_sim "distance") NotImplementedError) with (@Ok unit tt). cbn [bind ls_train].
    change (@ninf xr Num_xr) with XPInf. fold n.
    rewrite (mapM_ext_in _ (fun _ => Ok XPInf) (seq 0 n)) by (intros i Hi; apply A; apply in_seq in Hi; lia).
    generalize (seq 0 n). induction l as [|a l IH]; [reflexivity|]. cbn [mapM map]. now rewrite IH. }
  apply nicdm_outcome in H. rewrite E in H. destruct H as (L & -> & R1 & R2 & AL).
  exists L. split; [reflexivity|]. split; [assumption|]. split; [assumption|].
  intros i j Hi Hj Eij. destruct (AL i j Hi Hj) as (_ & A2).
  rewrite (maybe0_xr _ _ (A2 Eij)). unfold nicdm_cell. cbv beta. change (@nnan xr Num_xr) with XNaN. rewrite !nth_map_seq by lia.
  assert (F : nisfin (at2 D (Nat.min i j) (Nat.max i j)) = true) by (apply Hf; lia).
  simpl in F. destruct (at2 D (Nat.min i j) (Nat.max i j)); try discriminate.
  assert (G : local_geomean xexp xln xsum (map (fun _ => XPInf) (seq 0 n)) = XPInf).
  { unfold local_geomean. rewrite xsum_inf_in.
    - rewrite map_length, seq_length. unfold nofnat. simpl. destruct (Rlt_dec _ 0) as [Q|]; [|reflexivity].
      exfalso. revert Q. apply Rle_not_lt, IZR_le. lia.
    - intros x Hx. left. rewrite map_map in Hx. apply in_map_iff in Hx. now destruct Hx as (a & <- & _).
    - rewrite map_map. apply in_map_iff. exists 0. split; [reflexivity|]. apply in_seq. lia. }
  rewrite G. unfold nicdm_val. simpl. destruct (rsgn r); reflexivity.
Qed.

(** ** C53: similarities with test_ind.  t points are held out.  The radius
    position is computed from n but applied to the n - t training columns: for
    t < k the radius is the (k - t)-th largest training similarity instead of
    the k-th, for t >= k (with at least one point) the call fails *)
Theorem C53_similarity_test_ind_rank :
  forall (vexp : f64 -> f64) part (D : arr2 f64) n k test cpu n_jobs res,
    part_ok part -> nrow D = n -> ncol D = n -> 0 < n ->
    (forall i j, i < n -> j < n -> i <> j -> nisfin (at2 D i j) = true) ->
    0 < k < n -> (1 <= workers cpu n_jobs)%Z ->
    let t := n - length (training n (Some test)) in
    local_scaling vexp part D (Z.of_nat k) "similarity" (Some test) cpu n_jobs res ->
    (k <= t -> res = Raise ValueError) /\
    (t < k -> exists L (r : nat -> f64), res = Ok L /\
       (forall i, i < n -> kth_largest (others D (training n (Some test)) i) (k - t) (r i)) /\
       forall i j, i < j -> j < n ->
         same (at2 L i j) (vexp (ndiv (nmul (nofZ (-1)) (nmul (at2 D i j) (at2 D i j))) (nmul (r i) (r j)))) = true).
Proof.
  intros vexp part D n k test cpu nj res PO Hr Hc Hn Hf Hk Hw t H. subst n. set (n := nrow D) in *.
  set (cols := training n (Some test)) in *.
  assert (Lc : length cols <= n).
  { unfold cols. simpl. pose proof (filter_length_le (fun x => negb (existsb (Nat.eqb x) test)) (seq 0 n)) as Q. now rewrite seq_length in Q. }
  apply ls_outcome in H; [|exact Hw].
  assert (U : ls_radii part D (Z.of_nat k) "similarity" (Some test) =
     mapM (ls_radius part (fill_diagonal D nninf) cols (Z.of_nat n - Z.of_nat k)) (seq 0 n)).
  { unfold ls_radii. rewrite (proj2 (check_shape_ok D) (eq_sym Hc)). reflexivity. }
  split.
  - intros Ht.
    assert (E : ls_radii part D (Z.of_nat k) "similarity" (Some test) = Raise ValueError).
    { rewrite U. rewrite (mapM_ext_in _ (fun _ => Raise ValueError) (seq 0 n)).
      - replace n with (S (n - 1)) by lia. reflexivity.
      - intros i _. unfold ls_radius, np_partition. rewrite map_length.
        replace (kth_legal (length cols) [(Z.of_nat n - Z.of_nat k)%Z]) with false; [reflexivity|].
        symmetry. unfold kth_legal. cbn [forallb]. rewrite andb_true_r. apply andb_false_iff. right. apply Z.ltb_ge. unfold t in Ht. lia. }
    rewrite E in H. exact H.
  - intros Ht.
    assert (A : forall i, i < n -> exists v, ls_radius part (fill_diagonal D nninf) cols (Z.of_nat n - Z.of_nat k) i = Ok v /\
      kth_largest (others D cols i) (k - t) v).
    { intros i Hi. replace (Z.of_nat n - Z.of_nat k)%Z with (Z.of_nat (length cols) - Z.of_nat (k - t))%Z by (unfold t in *; lia).
      apply (ls_radius_sim f64_cmp part PO); [apply training_NoDup| |].
      - intros x Hx. apply others_in in Hx. destruct Hx as (j & Hj & Hne & ->). now apply Hf; auto.
      - split; [lia|]. apply (others_len_lt D n (Some test)). fold cols. unfold t in *. lia. }
    destruct (mapM_all (ls_radius part (fill_diagonal D nninf) cols (Z.of_nat n - Z.of_nat k)) (seq 0 n)) as (rs & E).
    { intros i Hi. apply in_seq in Hi. destruct (A i) as (v & Ev & _); [lia|]. now exists v. }
    rewrite U, E in H. destruct H as (L & -> & R1 & R2 & AL).
    exists L, (fun i => nth i rs nnan). split; [reflexivity|]. split.
    + intros i Hi. destruct (A i Hi) as (v & Ev & Kv). apply (mapM_nth _ _ _ i 0 nnan) in E; [|now rewrite seq_length].
      rewrite seq_nth in E by assumption. simpl (0 + i) in E. rewrite Ev in E. assert (Q : nth i rs (nnan (V:=f64)) = v) by (clear - E; now inversion E). rewrite Q. exact Kv.
    + intros i j Hij Hj. assert (Hi : i < n) by lia. pose proof (proj2 (AL i j Hi Hj) ltac:(lia)) as M.
      rewrite Nat.min_l, Nat.max_r in M by lia. apply maybe0_same in M. exact M.
Qed.

(** ** C54: n_jobs below 1 (other than -1).  nicdm runs serially, local_scaling
    computes the radii and then raises UnboundLocalError *)
Theorem C54_nonpositive_n_jobs :
  forall (vexp vln : f64 -> f64) vsum part (D : arr2 f64) k metric test cpu n_jobs,
    (n_jobs < 1)%Z -> n_jobs <> (-1)%Z ->
    (forall res, local_scaling vexp part D k metric test cpu n_jobs res -> exists e, res = Raise e) /\
    (forall L res, local_scaling vexp part D k metric test cpu 1 (Ok L) ->
       local_scaling vexp part D k metric test cpu n_jobs res -> res = Raise UnboundLocalError) /\
    (forall res res', nicdm vexp vln vsum part D k metric test cpu n_jobs res ->
       nicdm vexp vln vsum part D k metric test cpu 1 res' -> agree res res').
Proof.
  intros vexp vln vsum part D k metric test cpu nj Hlt Hne.
  assert (Ej : (if (nj =? -1)%Z then Z.of_nat cpu else nj) = nj).
  { destruct (Z.eqb_spec nj (-1)); [contradiction|reflexivity]. }
  assert (LS : forall res, local_scaling vexp part D k metric test cpu nj res ->
     res = (let* _ := ls_radii part D k metric test in Raise UnboundLocalError)%py).
  { intros res H. destruct H; try lia. reflexivity. }
  split; [|split].
  - intros res H. rewrite (LS res H). destruct (ls_radii part D k metric test); cbn [bind]; eauto.
  - intros L res H1 H. rewrite (LS res H). apply ls_outcome in H1; [|unfold workers; simpl; lia].
    destruct (ls_radii part D k metric test); [reflexivity|discriminate].
  - intros res res' H H'. apply nicdm_outcome in H. apply nicdm_outcome in H'.
    destruct (nicdm_radii vsum part D k metric test) as [rs|e].
    + destruct H as (L & -> & R & C & A), H' as (L' & -> & R' & C' & A'). simpl.
      split; [congruence|]. split; [congruence|]. intros i j Hi Hj.
      rewrite R in Hi. rewrite C in Hj. destruct (A i j Hi Hj) as (Ae & An), (A' i j Hi Hj) as (Ae' & An').
      destruct (Nat.eq_dec i j) as [E|E].
      * eapply same_trans; [apply maybe0_same; exact (Ae E)|]. rewrite same_sym. apply maybe0_same; exact (Ae' E).
      * eapply same_trans; [apply maybe0_same; exact (An E)|]. rewrite same_sym. apply maybe0_same; exact (An' E).
    + subst. reflexivity.
Qed.

(* ------------------------------------------------------------------ *)
(** concrete cases *)
Definition exSmp : arr2 xr := Arr2 3 2 (fun i j => XFin (INR (1 + i + j))).
Example C16_case : exists L L' N N',
  local_scaling_sample xexp ref_part exSmp 1 "distance" [1; 2] None = Ok L /\
  local_scaling_sample xexp ref_part exSmp 1 "distance" [1; 2] (Some [0; 1; 2]) = Ok L' /\
  nicdm_sample xexp xln xsum ref_part exSmp 1 "distance" [1; 2] None = Ok N /\
  nicdm_sample xexp xln xsum ref_part exSmp 1 "distance" [1; 2] (Some [0; 1; 2]) = Ok N' /\
  at2 L 1 0 = XFin 1 /\ at2 L 1 1 = XFin 0 /\ at2 L' 1 0 = XFin 0 /\
  at2 N 1 0 = XPInf /\ at2 N 1 1 = XFin 0 /\ at2 N' 1 0 = XFin 0.
Proof.
  assert (PO : part_ok (ref_part (V := xr))) by apply (ref_part_ok xr_cmp).
  assert (Nd : NoDup [1; 2]) by (repeat constructor; simpl; intuition lia).
  assert (Ht : forall s, In s [1; 2] -> s < nrow exSmp) by (simpl; intuition lia).
  assert (Hp : forall i, i < 3 -> forall x, In x (sample_others exSmp [1; 2] i) -> exists y, x = XFin y /\ (0 < y)%R).
  { intros i Hi x Hx. apply sample_others_in in Hx. destruct Hx as (j & Hj & _ & ->). exists (INR (1 + i + j)). split; [reflexivity|].
    apply lt_0_INR. lia. }
  destruct (C16_ls_sample_self_cells ref_part exSmp [1; 2] 1 PO ltac:(simpl; lia) eq_refl Nd Ht (fun _ _ _ _ _ => eq_refl) ltac:(simpl; lia)) as
    (L & L' & r & E & E' & _ & _ & _ & _ & K & D0 & S & S' & _).
  destruct (C16_nicdm_sample_self_cells ref_part exSmp [1; 2] 1 PO ltac:(simpl; lia) eq_refl Nd Ht (fun _ _ _ _ _ => eq_refl) ltac:(simpl; lia)) as
    (M & M' & q & F & F' & _ & _ & _ & _ & Q & D1 & T & P & _).
  exists L, L', M, M'. split; [exact E|]. split; [exact E'|]. split; [exact F|]. split; [exact F'|].
  split; [|split; [|split; [|split; [|split]]]].
  - apply (S 0); [simpl; lia|discriminate|]. destruct (Hp 1 ltac:(lia) (XFin (r 1))) as (y & Ey & Hy).
    + apply (K 1). simpl. lia.
    + simpl. injection Ey as ->. exact Hy.
  - apply (D0 1). simpl. lia.
  - apply (S' 0). simpl. lia.
  - destruct P as (P & _).
    + intros i Hi. destruct (Q i Hi) as (s & Ks & ->). destruct Ks as (Ls & rest & Pm & _). rewrite map_length in Ls.
      destruct s as [|y [|z s]]; try discriminate Ls.
      destruct (Hp i Hi (XFin y)) as (y' & Ey & Hy).
      * eapply Permutation_in; [symmetry; exact Pm|now left].
      * injection Ey as ->. simpl. lra.
    + apply (P 0); [simpl; lia|discriminate].
  - apply (D1 1). simpl. lia.
  - apply (T 0). simpl. lia.
Qed.

(** 4 points, 2 held out: k = 3 uses the largest training similarity, k = 2 fails *)
Definition exSim4 : arr2 f64 :=
  of_rows nnan (map (map f64_ofZ) [[9;1;2;3];[1;9;4;5];[2;4;9;6];[3;5;6;9]]%Z).
Example C53_case :
  (match ls_radii ref_part exSim4 3 "similarity" (Some [0; 1]) with
   | Ok r => neq (nth 0 r nnan) (f64_ofZ 3) | Raise _ => false end) = true /\
  ls_radii ref_part exSim4 2 "similarity" (Some [0; 1]) = Raise ValueError /\
  4 - length (training 4 (Some [0; 1])) = 2.
Proof. vm_compute. auto. Qed.

Print Assumptions C16_ls_sample_self_cells.
Print Assumptions C16_nicdm_sample_self_cells.
Print Assumptions C52_ls_k_unchecked.
Print Assumptions C52_nicdm_k_equals_n.
Print Assumptions C53_similarity_test_ind_rank.
Print Assumptions C54_nonpositive_n_jobs.
