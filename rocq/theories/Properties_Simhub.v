(** Properties C77-C79: shared_neighbors.py:303-636, hubness-aware shared
    neighbour distances. *)
From Coq Require Import String.
From Coq Require Import ZArith List Arith Lia Bool Reals Lra Permutation.
From Verif Require Import Py Num NumT Arr Sort Conc S_Neighbors S_SNN S_Simhub M_IO M_SNN M_GK M_Simhub.
From Verif Require Import P_Neighbors P_SNN P_Simhub P_Simhub2.
Import ListNotations.
Local Open Scope nat_scope.

(** all off-diagonal cells are finite *)
Definition finite_off (D : arr2 xr) : Prop :=
  forall i x, i < nrow D -> x < ncol D -> x <> i -> nisfin (at2 D i x) = true.

Lemma row_of_seq b m j : j < m -> row_of b (seq 0 m) j = j.
Proof. intros. unfold row_of. destruct b; [now rewrite seq_nth|reflexivity]. Qed.

(** ** C77.  Values of simhubIN on a square matrix, exact arithmetic.
    [hood i] is a set of exactly s nearest objects of i, the object itself
    ranked last. *)
Theorem C77_simhubIN_values :
  forall (argsort : list xr -> list nat), argsort_ok argsort ->
  forall (D : arr2 xr) s rd,
    nrow D = ncol D -> 2 <= nrow D -> 0 < s -> s <= nrow D ->
    exists M (hood : nat -> list nat),
      simhubIN_serial argsort xln xsum D None None (Z.of_nat s) rd = Ok M /\
      nrow M = nrow D /\ ncol M = nrow D /\
      (forall i, i < nrow D ->
         kset (fun x y => nearer "distance" (rank_value "distance" D i x) (rank_value "distance" D i y))
              (nrow D) s (hood i)) /\
      (forall i, i < nrow D -> at2 M i i = XFin (if rd then 0 else 1)) /\
      (forall i j, i < nrow D -> j < nrow D -> i <> j ->
         let sim := hub_sim hood (occurs hood (nrow D)) (nrow D) s i j in
         at2 M i j = XFin (if rd then 1 - sim else sim)%R /\
         at2 M j i = at2 M i j /\
         (0 <= sim)%R /\ (sim <= INR (overlap (hood i) (hood j)) / INR s)%R /\ (sim <= 1)%R).
Proof.
  intros argsort AS D s rd Hsq Hm Hs Hsm.
  destruct (simhubIN_xr argsort AS D None None s rd) as (M & HM & HK & R & C & A);
    [lia|exact Hsq|exact I|lia|assumption|lia|].
  cbn [cols_of shi_rows] in *. rewrite seq_length in R.
  set (hood := shi_hood argsort (Z.of_nat s) (shi_dist D None)) in *.
  exists M, hood. split; [exact HM|]. split; [exact R|]. split; [lia|]. split.
  { intros i Hi. destruct (HK i) as [K1 K2 K3 K4]. constructor; try assumption.
    - intros x Hx. rewrite Hsq. auto.
    - intros x y Hx Hn Hy. rewrite Hsq in Hx. specialize (K4 x y Hx Hn Hy).
      unfold rank_value_s in K4. rewrite !seq_nth in K4 by auto. exact K4. }
  assert (A' : forall i j, i < nrow D -> j < nrow D -> at2 M i j =
     if i =? j then XFin (if rd then 0 else 1) else
       let sim := hub_sim hood (occurs hood (ncol D)) (ncol D) s i j in
       XFin (if rd then 1 - sim else sim)%R).
  { intros i j Hi Hj. rewrite A by lia. cbv zeta. rewrite row_of_seq by lia. reflexivity. }
  split; [intros i Hi; rewrite A' by assumption; now rewrite Nat.eqb_refl|].
  intros i j Hi Hj Hne. cbv zeta.
  rewrite !A' by assumption. rewrite (Nat.eqb_sym j i).
  apply Nat.eqb_neq in Hne as Hne'. rewrite Hne'. cbv zeta.
  rewrite (hub_sim_comm hood _ _ _ j i) by (apply (HK j) || apply (HK i)).
  rewrite Hsq. split; [reflexivity|]. split; [reflexivity|].
  destruct (hub_sim_bounds hood (occurs hood (ncol D)) (ncol D) s i j 1) as (B1 & B2);
    [lia|assumption|apply (HK i)|lia| |].
  { intros x Hx. apply common_in in Hx as (Hx & _). apply (HK i) in Hx.
    split; [now apply occurs_pos|apply occurs_le]. }
  cbv zeta in *. change (INR 1) with 1%R in B2. rewrite ln_1 in B2.
  replace (1 - 0 / ln (INR (ncol D)))%R with 1%R in B2 by (unfold Rdiv; lra). rewrite Rmult_1_r in B2.
  split; [exact B1|]. split; [exact B2|]. eapply Rle_trans; [exact B2|].
  assert (Hss : (0 < INR s)%R) by now apply INR_pos.
  apply Rmult_le_reg_r with (INR s); [assumption|]. unfold Rdiv. rewrite Rmult_assoc, Rinv_l by lra.
  rewrite Rmult_1_r, Rmult_1_l. apply le_INR. pose proof (overlap_le (hood i) (hood j)) as L.
  destruct (HK i) as [K1 _ _ _]. lia.
Qed.

(** with finite distances two different objects are never closer than
    ln 3 / ln m, not even duplicates *)
Theorem C77_different_objects_apart :
  forall (argsort : list xr -> list nat), argsort_ok argsort ->
  forall (D : arr2 xr) s M,
    nrow D = ncol D -> 3 <= nrow D -> 0 < s -> s < nrow D -> finite_off D ->
    simhubIN_serial argsort xln xsum D None None (Z.of_nat s) true = Ok M ->
    forall i j, i < nrow D -> j < nrow D -> i <> j ->
      exists d, at2 M i j = XFin d /\ (ln 3 / ln (INR (nrow D)) <= d <= 1)%R /\ (0 < d)%R.
Proof.
  intros argsort AS D s M Hsq Hm Hs Hsm Hf HM i j Hi Hj Hne.
  destruct (simhubIN_xr argsort AS D None None s true) as (M' & HM' & HK & R & C & A);
    [lia|exact Hsq|exact I|lia|assumption|lia|].
  rewrite HM in HM'. injection HM' as <-.
  cbn [cols_of shi_rows] in *. rewrite seq_length in R.
  set (hood := shi_hood argsort (Z.of_nat s) (shi_dist D None)) in *.
  rewrite A by lia. apply Nat.eqb_neq in Hne as Hne'. rewrite Hne'. cbv zeta.
  rewrite row_of_seq by lia. eexists. split; [reflexivity|].
  assert (NS : forall a, a < nrow D -> ~ In a (hood a)).
  { intros a Ha. eapply (no_self D s a); eauto; [lia|]. intros x Hx Hxa. apply Hf; lia. }
  destruct (hub_sim_bounds hood (occurs hood (ncol D)) (ncol D) s i j 3) as (B1 & B2);
    [lia|assumption|apply (HK i)|lia| |].
  { intros x Hx. apply common_in in Hx as (Hxi & Hxj). split; [|apply occurs_le].
    unfold occurs.
    assert (Hxm : x < ncol D) by (apply (HK i); assumption).
    change 3 with (length [x; i; j]). apply NoDup_incl_length.
    - assert (x <> i) by (intros ->; now apply (NS i)).
      assert (x <> j) by (intros ->; now apply (NS j)).
      repeat constructor; cbn; intuition congruence.
    - intros a [<-|[<-|[<-|[]]]]; apply filter_In; (split; [apply in_seq; lia|]); apply orb_true_iff.
      + left. apply Nat.eqb_refl.
      + right. now apply existsb_In.
      + right. now apply existsb_In. }
  cbv zeta in *. replace (INR 3) with 3%R in B2 by (cbn; lra).
  assert (L3 : (0 < ln 3)%R) by (apply ln_gt0; lra).
  assert (Hm3 : (3 <= INR (ncol D))%R) by (replace 3%R with (INR 3) by (cbn; lra); apply le_INR; lia).
  assert (Lm : (ln 3 <= ln (INR (ncol D)))%R) by (apply ln_mono; lra).
  assert (Q : (0 < ln 3 / ln (INR (ncol D)) <= 1)%R).
  { split; [apply Rdiv_lt_0_compat; lra|]. apply Rmult_le_reg_r with (ln (INR (ncol D))); [lra|].
    unfold Rdiv. rewrite Rmult_assoc, Rinv_l; lra. }
  assert (O : (0 <= INR (overlap (hood i) (hood j)) / INR s <= 1)%R).
  { assert (Hss : (0 < INR s)%R) by now apply INR_pos.
    pose proof (pos_INR (overlap (hood i) (hood j))).
    split; [apply Rmult_le_pos; [assumption|left; now apply Rinv_0_lt_compat]|].
    apply Rmult_le_reg_r with (INR s); [assumption|]. unfold Rdiv. rewrite Rmult_assoc, Rinv_l by lra.
    rewrite Rmult_1_r, Rmult_1_l. apply le_INR. pose proof (overlap_le (hood i) (hood j)) as L.
    destruct (HK i) as [K1 _ _ _]. lia. }
  rewrite Hsq. nra.
Qed.

(** ** C78: any number of workers, any schedule, any arithmetic *)
Theorem C78_simhubIN_any_schedule :
  forall (V : Type) (N : Num V) (argsort : list V -> list nat) (vln : V -> V) (vsum : list V -> V)
         (n_jobs : Z) (cpus : nat) (D : arr2 V) train test s rd,
    (exists r, simhubIN argsort vln vsum n_jobs cpus D train test s rd r) /\
    forall r, simhubIN argsort vln vsum n_jobs cpus D train test s rd r ->
      match r, simhubIN_serial argsort vln vsum D train test s rd with
      | Ok M, Ok M' => eq2 M M'
      | Raise e, Raise e' => e = e'
      | _, _ => False
      end.
Proof.
  intros. unfold simhubIN. destruct (1 <? _)%Z.
  - split; [apply simhubIN_parallel_exists|]. intros r. apply simhubIN_parallel_serial.
  - split; [eexists; reflexivity|]. intros r ->.
    destruct (simhubIN_serial _ _ _ _ _ _ _ _); [apply eq2_refl|reflexivity].
Qed.

(** ** C79.  Unsupervised simhub and simhubIN agree on square matrices with
    finite distances; simhub refuses s outside 1..m-1, simhubIN does not. *)
Theorem C79_unsupervised_simhub_is_simhubIN :
  forall (argsort : list xr -> list nat), argsort_ok argsort ->
  forall (D : arr2 xr) test s rd vect_usage,
    nrow D = ncol D -> 0 < s -> s < nrow D -> finite_off D ->
    match test with None => True | Some t => forall i, In i t -> i < nrow D end ->
    exists M M',
      simhub argsort xln xsum D None None test (Z.of_nat s) rd vect_usage = Ok M /\
      simhubIN_serial argsort xln xsum D None test (Z.of_nat s) rd = Ok M' /\
      eq2 M M'.
Proof.
  intros argsort AS D test s rd vu Hsq Hs Hsm Hf Hte.
  destruct (simhubIN_xr argsort AS D None test s rd) as (M' & HM' & HK & R' & C' & A');
    [lia|exact Hsq|exact Hte|lia|assumption|lia|].
  destruct (simhub_cells argsort AS D None None test s rd vu) as (M & HM & _ & R & C & A);
    [lia|exact Hsq|exact Hte|exact I|assumption|lia|].
  cbn [cols_of] in *. set (hood := shi_hood argsort (Z.of_nat s) (shi_dist D None)) in *.
  exists M, M'. split; [exact HM|]. split; [exact HM'|]. split; [congruence|]. split; [congruence|].
  assert (NS : forall a, a < nrow D -> ~ In a (hood a)).
  { intros a Ha. eapply (no_self D s a); eauto; [lia|]. intros x Hx Hxa. apply Hf; lia. }
  assert (Hm : 2 <= ncol D) by lia.
  assert (Hnz : (INR s * ln (INR (ncol D)) <> 0)%R).
  { assert (0 < ln (INR (ncol D)))%R by (apply ln_gt0; pose proof (INR_ge2 _ Hm); lra).
    assert (0 < INR s)%R by now apply INR_pos. nra. }
  assert (EV : forall i r, conv rd (XFin (sh_scale None (ncol D) s)) (XFin (sh_sum hood None (ncol D) i r))
    = let sim := hub_sim hood (occurs hood (ncol D)) (ncol D) s i r in XFin (if rd then 1 - sim else sim)%R).
  { intros i r. cbn [sh_scale]. rewrite conv_xr by assumption. cbv zeta.
    replace (sh_sum hood None (ncol D) i r) with
      (rsum (map (fun x => ln (INR (ncol D) / INR (occurs hood (ncol D) x))) (common (hood i) (hood r))));
      [reflexivity|].
    unfold sh_sum. cbv zeta. apply rsum_ext. intros x Hx. apply common_in in Hx as (Hx & _).
    apply (HK i) in Hx. rewrite occurs_any_S; [reflexivity|assumption|]. apply NS. lia. }
  intros a j Ha Hj. rewrite C in Hj. rewrite A by assumption. rewrite A' by (congruence || assumption).
  cbv zeta. rewrite !row_of_seq by assumption.
  destruct test as [t|]; [apply EV|]. destruct (a =? j); [reflexivity|apply EV].
Qed.

Theorem C79_s_out_of_range :
  (** simhub refuses *)
  (forall (V : Type) (N : Num V) argsort vln vsum (D : arr2 V) y test s rd vect_usage,
     nrow D = ncol D -> (s <= 0 \/ Z.of_nat (ncol D) <= s)%Z ->
     simhub argsort vln vsum D y None test s rd vect_usage = Raise ValueError) /\
  (** simhubIN with s = 0 returns NaN everywhere off the diagonal *)
  (forall argsort (D : arr2 xr) rd, nrow D = ncol D -> 2 <= nrow D ->
     exists M, simhubIN_serial argsort xln xsum D None None 0 rd = Ok M /\
       forall i j, i < nrow D -> j < nrow D -> i <> j -> at2 M i j = XNaN).
Proof.
  split.
  - intros V N argsort vln vsum D y test s rd vu Hsq Hs. unfold simhub.
    rewrite shi_shape_ok by (assumption || lia). cbn [bind].
    replace ((0 <? s)%Z && (s <? Z.of_nat (ncol D))%Z) with false; [reflexivity|].
    symmetry. apply andb_false_iff. destruct Hs as [H|H]; [left|right]; apply Z.ltb_ge; lia.
  - intros argsort D rd Hsq Hm. unfold simhubIN_serial, shi_checks.
    rewrite shi_shape_ok by (assumption || lia). cbn [bind shi_index guard]. cbv zeta.
    set (knn := shi_knn argsort 0 (shi_dist D None)).
    set (m := ncol D).
    set (f := fun i j => shi_cell xsum knn m (fun x => shi_I xln m (shi_N knn m x)) i (shi_row (m <? 2000) None j)).
    destruct (shi_matrix f rd (shi_norm xln 0 m) (nrow D) m None) as (R & C & A).
    cbv zeta in *. cbn [shi_rows] in R. rewrite seq_length in R. unfold f in A, R, C |- *.
    eexists. split; [reflexivity|]. intros i j Hi Hj Hne. rewrite A; [|exact (eq_ind_r (fun k => i < k) Hi R)|unfold m; lia].
    apply Nat.eqb_neq in Hne. rewrite Hne.
    assert (E0 : forall r, shi_cell xsum knn m (fun x => shi_I xln m (shi_N knn m x)) i r = XFin 0%R).
    { intros r.
      rewrite (shi_cell_xr knn m _ (fun x => ln (INR m / INR (shi_N knn m x))) i r [] (shi_hood argsort 0 (shi_dist D None) r)).
      - reflexivity.
      - intros x. unfold knn. rewrite shi_knn_at. unfold shi_hood, prefix. cbn. apply andb_false_r.
      - intros x. unfold knn. rewrite shi_knn_at. unfold shi_hood, prefix. cbn. apply andb_false_r.
      - constructor.
      - intros x [].
      - intros x Hx. apply shi_I_xr; [unfold m; lia|].
        unfold knn. rewrite (shi_N_occurs argsort D None 0%Z m x) by (unfold m; lia). now apply occurs_pos. }
    rewrite E0. unfold shi_norm. rewrite nofnat_xr, xln_pos by (apply INR_pos; unfold m; lia).
    unfold conv. cbn [nofZ nmul Num_xr xmul ndiv xdiv]. rewrite Rmult_0_l.
    destruct (Req_EM_T 0 0) as [_|H]; [|lra]. unfold rsgn.
    destruct (Rlt_dec 0 0); [lra|]. cbn [xinf_s]. destruct rd; reflexivity.
Qed.

(** [vect_usage] only matters when a sample is given *)
Theorem C79_vect_usage_irrelevant :
  forall (V : Type) (N : Num V) argsort vln vsum (D : arr2 V) y test s rd vu vu',
    simhub argsort vln vsum D y None test s rd vu = simhub argsort vln vsum D y None test s rd vu'.
Proof.
  intros. unfold simhub, shi_row.
  destruct ((0 <? vu)%Z || ((vu =? 0)%Z && (ncol D <? 2000))),
    ((0 <? vu')%Z || ((vu' =? 0)%Z && (ncol D <? 2000))); reflexivity.
Qed.

(* ------------------------------------------------------------------ *)
(** a concrete case: four objects on a line *)
Definition exH : arr2 xr :=
  of_rows XNaN (map (map (fun z => XFin (IZR z))) [[0;1;2;9];[1;0;1;8];[2;1;0;7];[9;8;7;0]]%Z).
Example ex_exH : nrow exH = ncol exH /\ 3 <= nrow exH /\ finite_off exH.
Proof.
  split; [reflexivity|]. split; [cbn; lia|].
  intros [|[|[|[|i]]]] [|[|[|[|x]]]] Hi Hx Hne; cbn in Hi, Hx; try lia; reflexivity.
Qed.
Example ex_argsort_xr : argsort_ok (ref_argsort (V:=xr)).
Proof. exact (ref_argsort_ok xr_cmp). Qed.

Print Assumptions C77_simhubIN_values.
Print Assumptions C77_different_objects_apart.
Print Assumptions C78_simhubIN_any_schedule.
Print Assumptions C79_unsupervised_simhub_is_simhubIN.
Print Assumptions C79_s_out_of_range.
Print Assumptions C79_vect_usage_irrelevant.
