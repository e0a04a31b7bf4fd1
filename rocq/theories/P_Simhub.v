(** Proofs about M_Simhub *)
From Coq Require Import String.
From Coq Require Import ZArith List Arith Lia Bool Reals Lra Permutation.
From Verif Require Import Py Num NumT Arr Sort Conc S_Neighbors S_SNN S_Simhub M_IO M_SNN M_GK M_Simhub.
From Verif Require Import P_Neighbors P_SNN.
Import ListNotations.
Local Open Scope nat_scope.

Section P.
  Context {V : Type} {N : Num V} {toX : V -> xr} (CL : CmpLaws V N toX).
  Variable argsort : list V -> list nat.
  Variable vln : V -> V.
  Variable vsum : list V -> V.

  (** the objects behind the columns *)
  Definition cols_of (m : nat) (train : option (list nat)) : list nat :=
    match train with None => seq 0 m | Some t => t end.

  Lemma shi_dist_shape (D : arr2 V) train :
    nrow (shi_dist D train) = nrow D /\ ncol (shi_dist D train) = ncol D.
  Proof.
    destruct train as [t|]; cbn [shi_dist]; [apply set_cells_shape|split; reflexivity].
  Qed.

  Lemma shi_dist_at (D : arr2 V) train i x :
    length (cols_of (ncol D) train) = ncol D -> x < ncol D ->
    at2 (shi_dist D train) i x = rank_value_s "distance"%string D (cols_of (ncol D) train) i x.
  Proof.
    intros Hl Hx. unfold rank_value_s. destruct train as [t|]; cbn [shi_dist cols_of] in *.
    - rewrite set_cells_at, Hl.
      replace (x <? ncol D) with true by (symmetry; apply Nat.ltb_lt; lia).
      cbn [andb]. rewrite Nat.eqb_sym. reflexivity.
    - rewrite seq_nth by assumption. cbn [at2 fill_diagonal]. rewrite Nat.add_0_l, Nat.eqb_sym. reflexivity.
  Qed.

  Lemma shi_hood_kset (AS : argsort_ok argsort) (D : arr2 V) train s i :
    length (cols_of (ncol D) train) = ncol D -> s <= ncol D ->
    shi_neighbours D (cols_of (ncol D) train) s i (shi_hood argsort (Z.of_nat s) (shi_dist D train) i).
  Proof.
    intros Hl Hs. unfold shi_neighbours, shi_hood. rewrite prefix_nat.
    set (E := shi_dist D train). destruct (shi_dist_shape D train) as (R & C). fold E in R, C.
    assert (Ln : length (rowl E i) = ncol D) by (rewrite rowl_length; assumption).
    assert (Ev : forall x, x < ncol D -> vat (rowl E i) x
        = rank_value_s "distance"%string D (cols_of (ncol D) train) i x).
    { intros x Hx. unfold vat. rewrite rowl_nth by (rewrite C; assumption). now apply shi_dist_at. }
    destruct (argpart_knn_dist CL (rowl E i) s (argsort (rowl E i))) as [K1 K2 K3 _ K4].
    { rewrite Ln. assumption. }
    { apply argsort_argpart; [apply AS|]. intros z Hz. apply in_seq in Hz. lia. }
    rewrite Ln in K3, K4. constructor; auto.
    intros x y Hx Hnx Hy. unfold nearer. cbn. rewrite <- !Ev by auto. now apply K4.
  Qed.

  Lemma shi_knn_at s dist a b :
    at2 (shi_knn argsort s dist) a b
    = (a <? nrow dist) && existsb (Nat.eqb b) (shi_hood argsort s dist a).
  Proof. unfold shi_knn. apply mark_loop. Qed.
  Lemma shi_knn_shape s dist :
    nrow (shi_knn argsort s dist) = nrow dist /\ ncol (shi_knn argsort s dist) = ncol dist.
  Proof.
    unfold shi_knn. set (h := shi_hood argsort s dist).
    assert (G : forall k, nrow (for_ k (fun i K => mark_row K i (h i)) (full2 (nrow dist) (ncol dist) false)) = nrow dist
       /\ ncol (for_ k (fun i K => mark_row K i (h i)) (full2 (nrow dist) (ncol dist) false)) = ncol dist).
    { induction k as [|k IH]; [split; reflexivity|]. rewrite for_S. cbn [nrow ncol mark_row]. exact IH. }
    apply G.
  Qed.

  (** distances or similarities *)
  Definition conv (ret_dist : bool) (norm v : V) : V :=
    let w := ndiv v norm in if ret_dist then nadd (nmul w (nopp n1)) n1 else w.

  Lemma shi_finish_at ret_dist norm n m test (M : arr2 V) :
    nrow M = n -> ncol M = m ->
    let R := shi_finish ret_dist norm test M in
    nrow R = match test with None => n | Some t => length t end /\ ncol R = m /\
    forall a b, a < nrow R -> b < m -> at2 R a b =
      match test with
      | None => if a =? b then (if ret_dist then n0 else n1) else conv ret_dist norm (at2 M a b)
      | Some t => conv ret_dist norm (at2 M (nth a t 0) b)
      end.
  Proof.
    intros <- <-. cbv zeta. unfold shi_finish, conv.
    destruct test as [t|], ret_dist; cbn [nrow ncol map2d fill_diagonal at2];
      (split; [reflexivity|]; split; [reflexivity|]); intros a b Ha Hb; reflexivity.
  Qed.

  Lemma shi_loop (f : nat -> nat -> V) n m test a b :
    In a (shi_rows n test) -> b < m ->
    at2 (fold_left (fun M i => setrow M i 0 m (f i)) (shi_rows n test) (full2 n m n0)) a b = f a b.
  Proof.
    intros Ha Hb. rewrite rows_loop by assumption. now rewrite (proj2 (existsb_In a _) Ha).
  Qed.

  (** the value matrix of both functions *)
  Lemma shi_matrix (f : nat -> nat -> V) ret_dist norm n m test :
    let R := shi_finish ret_dist norm test
      (fold_left (fun M i => setrow M i 0 m (f i)) (shi_rows n test) (full2 n m n0)) in
    nrow R = length (shi_rows n test) /\ ncol R = m /\
    forall a b, a < nrow R -> b < m -> at2 R a b =
      match test with
      | None => if a =? b then (if ret_dist then n0 else n1) else conv ret_dist norm (f a b)
      | Some t => conv ret_dist norm (f (nth a t 0) b)
      end.
  Proof.
    cbv zeta. set (M := fold_left _ _ _).
    destruct (rows_shape (shi_rows n test) m f (full2 n m n0)) as (R & C). fold M in R, C.
    cbn [nrow ncol full2] in R, C.
    destruct (shi_finish_at ret_dist norm n m test M R C) as (R' & C' & A). cbv zeta in *.
    split; [rewrite R'; destruct test; cbn [shi_rows]; now rewrite ?seq_length|].
    split; [exact C'|]. intros a b Ha Hb. rewrite A by assumption. rewrite R' in Ha.
    destruct test as [t|].
    - unfold M. rewrite shi_loop; [reflexivity| |assumption]. cbn [shi_rows]. now apply nth_In.
    - destruct (a =? b); [reflexivity|]. unfold M. rewrite shi_loop; [reflexivity| |assumption].
      cbn [shi_rows]. apply in_seq. lia.
  Qed.

  Lemma shi_index_ok n idx :
    (match idx with None => True | Some t => forall s, In s t -> s < n end) ->
    shi_index n idx = Ok tt.
  Proof.
    intros H. unfold shi_index. destruct idx as [t|]; [|reflexivity].
    replace (existsb (fun i => n <=? i) t) with false; [reflexivity|].
    symmetry. apply Bool.not_true_is_false. intros E. apply existsb_exists in E as (x & Hx & E).
    apply H in Hx. apply Nat.leb_le in E. lia.
  Qed.

  Lemma shi_shape_ok (D : arr2 V) train :
    ncol D <= nrow D ->
    match train with None => nrow D = ncol D | Some t => length t = ncol D end ->
    shi_shape D train = Ok tt.
  Proof.
    intros H Ht. destruct train as [t|]; cbn [shi_shape].
    - unfold check_sample_shape_fits, guard, dim0, dim1, size_of. simpl.
      replace (nrow D <? ncol D) with false by (symmetry; apply Nat.ltb_ge; lia).
      rewrite Nat.mul_1_r, Ht, Nat.eqb_refl. reflexivity.
    - unfold check_distance_matrix_shape, check_is_nD_array, guard, dim0, dim1. simpl.
      rewrite Ht, Nat.eqb_refl. reflexivity.
  Qed.

  (* ---------------- schedules ---------------- *)
  Lemma shi_phase1 s dist n knn :
    pool_run celleq (fun _ => false) (map (shi_task1 argsort s dist) (seq 0 n)) knn ->
    forall a b, knn (a, b) = (a <? n) && existsb (Nat.eqb b) (shi_hood argsort s dist a).
  Proof.
    intros H a b.
    destruct (fun F => pool_run_fun celleq celleq_spec _ knn _ (fun _ => true) F H (a, b)) as (G1 & G2).
    { intros t c v Ht Hin. apply in_map_iff in Ht as (i & <- & _).
      unfold shi_task1 in Hin. apply in_map_iff in Hin as (x & E & _). congruence. }
    destruct (Nat.ltb_spec a n) as [Ha|Ha]; [destruct (existsb _ _) eqn:E|]; cbn [andb].
    - apply G1. exists (shi_task1 argsort s dist a). split.
      + apply in_map_iff. exists a. split; [reflexivity|]. apply in_seq. lia.
      + unfold shi_task1. apply in_map_iff. exists b. split; [reflexivity|]. now apply existsb_In.
    - apply G2. intros t v Ht Hin. apply in_map_iff in Ht as (i & <- & _).
      unfold shi_task1 in Hin. apply in_map_iff in Hin as (x & E' & Hx).
      injection E' as -> -> _. apply existsb_nIn in E. contradiction.
    - apply G2. intros t v Ht Hin. apply in_map_iff in Ht as (i & <- & Hi). apply in_seq in Hi.
      unfold shi_task1 in Hin. apply in_map_iff in Hin as (x & E' & Hx).
      injection E' as -> -> _. lia.
  Qed.

  Lemma shi_phase2 K m I vect train rows (data : cell -> V) :
    pool_run celleq (fun _ => n0) (map (shi_task2 vsum K m I vect train) rows) data ->
    forall a b, b < m ->
      data (a, b) = if existsb (Nat.eqb a) rows then shi_cell vsum K m I a (shi_row vect train b) else n0.
  Proof.
    intros H a b Hb.
    destruct (fun F => pool_run_fun celleq celleq_spec _ data _
      (fun c => shi_cell vsum K m I (fst c) (shi_row vect train (snd c))) F H (a, b)) as (G1 & G2).
    { intros t c v Ht Hin. apply in_map_iff in Ht as (i & <- & _).
      unfold shi_task2 in Hin. apply in_map_iff in Hin as (x & E & _). injection E as <- <-. reflexivity. }
    destruct (existsb (Nat.eqb a) rows) eqn:E.
    - apply G1. exists (shi_task2 vsum K m I vect train a). split.
      + apply in_map. now apply existsb_In.
      + unfold shi_task2. apply in_map_iff. exists b. split; [reflexivity|]. apply in_seq. lia.
    - apply G2. intros t v Ht Hin. apply in_map_iff in Ht as (i & <- & Hi).
      unfold shi_task2 in Hin. apply in_map_iff in Hin as (x & E' & Hx).
      injection E' as -> _ _. apply existsb_nIn in E. contradiction.
  Qed.

  Lemma shi_cell_ext K K' m I I' i r :
    (forall a b, at2 K a b = at2 K' a b) -> (forall x, x < m -> I x = I' x) ->
    shi_cell vsum K m I i r = shi_cell vsum K' m I' i r.
  Proof.
    intros HK HI. unfold shi_cell. f_equal. apply map_ext_in. intros x Hx. apply in_seq in Hx.
    rewrite !HK, HI by lia. reflexivity.
  Qed.

  Lemma shi_N_ext K K' m x : nrow K = nrow K' ->
    (forall a b, at2 K a b = at2 K' a b) -> shi_N K m x = shi_N K' m x.
  Proof.
    intros HR HK. unfold shi_N. cbv zeta. cbn [nrow fill_diagonal]. rewrite HR.
    apply count_if_ext. intros i Hi. cbn [at2 fill_diagonal]. now rewrite HK.
  Qed.

  Lemma simhubIN_parallel_serial D train test s rd r :
    simhubIN_parallel argsort vln vsum D train test s rd r ->
    match r, simhubIN_serial argsort vln vsum D train test s rd with
    | Ok M, Ok M' => eq2 M M'
    | Raise e, Raise e' => e = e'
    | _, _ => False
    end.
  Proof.
    intros H. unfold simhubIN_serial. destruct H as [e He | knn data Hc Hp1 Hp2].
    - rewrite He. reflexivity.
    - rewrite Hc. cbn [bind]. cbv zeta in *.
      set (K := Arr2 (nrow D) (ncol D) (fun a b => knn (a, b))) in *.
      set (K' := shi_knn argsort s (shi_dist D train)).
      destruct (shi_dist_shape D train) as (R & C).
      assert (EK : forall a b, at2 K a b = at2 K' a b).
      { intros a b. unfold K', K. cbn [at2]. rewrite shi_knn_at, R. now apply shi_phase1. }
      assert (ER : nrow K = nrow K').
      { unfold K, K'. rewrite (proj1 (shi_knn_shape s _)), R. reflexivity. }
      match goal with |- eq2 (shi_finish _ _ _ ?A) (shi_finish _ _ _ ?B) =>
        assert (E : eq2 A B) end.
      { set (f := fun i j => shi_cell vsum K' (ncol D) (fun x => shi_I vln (ncol D) (shi_N K' (ncol D) x)) i
                      (shi_row (ncol D <? 2000) train j)).
        destruct (rows_shape (shi_rows (nrow D) test) (ncol D) f (full2 (nrow D) (ncol D) n0)) as (R1 & C1).
        change (eq2 (Arr2 (nrow D) (ncol D) (fun a b => data (a, b)))
          (fold_left (fun M i => setrow M i 0 (ncol D) (f i)) (shi_rows (nrow D) test) (full2 (nrow D) (ncol D) n0))).
        split; [now rewrite R1|]. split; [now rewrite C1|].
        intros a b Ha Hb. cbn [nrow ncol at2] in *.
        rewrite (shi_phase2 _ _ _ _ _ _ _ Hp2) by assumption.
        rewrite rows_loop by assumption. destruct (existsb _ _); [|reflexivity].
        unfold f. apply shi_cell_ext; [exact EK|]. intros x Hx. unfold shi_I.
        rewrite (shi_N_ext K K') by assumption. reflexivity. }
      assert (Hr : forall t, test = Some t -> forall a, a < length t -> nth a t 0 < nrow D).
      { intros t -> a Ha. unfold shi_checks in Hc.
        destruct (shi_shape D train) as [[]|]; [|discriminate]. cbn [bind] in Hc.
        destruct (shi_index (nrow D) train) as [[]|]; [|discriminate]. cbn [bind] in Hc.
        unfold shi_index in Hc. destruct (existsb (fun i => nrow D <=? i) t) eqn:Ex; [discriminate|].
        destruct (Nat.lt_ge_cases (nth a t 0) (nrow D)) as [|Hge]; [assumption|].
        exfalso. assert (existsb (fun i => nrow D <=? i) t = true); [|congruence].
        apply existsb_exists. exists (nth a t 0). split; [now apply nth_In|]. now apply Nat.leb_le. }
      match goal with |- eq2 (shi_finish ?rd ?no _ ?A) (shi_finish _ _ _ ?B) =>
        set (X := A) in *; set (Y := B) in * end.
      destruct E as (E1 & E2 & E3).
      destruct (shi_finish_at rd (shi_norm vln s (ncol D)) _ _ test X eq_refl eq_refl) as (F1 & F2 & F3).
      destruct (shi_finish_at rd (shi_norm vln s (ncol D)) _ _ test Y eq_refl eq_refl) as (G1 & G2 & G3).
      cbv zeta in *.
      split; [rewrite F1, G1; destruct test; congruence|]. split; [congruence|].
      intros a b Ha Hb.
      rewrite F3 by congruence. rewrite G3.
      + destruct test as [t|].
        * rewrite E3; [reflexivity| |congruence]. cbn [nrow X]. apply (Hr t eq_refl). now rewrite <- F1.
        * destruct (a =? b); [reflexivity|]. rewrite E3; [reflexivity| |congruence]. now rewrite <- F1.
      + rewrite G1. rewrite F1 in Ha. destruct test; [assumption|]. now rewrite <- E1.
      + rewrite F2 in Hb. now rewrite <- E2.
  Qed.

  Lemma simhubIN_parallel_exists D train test s rd :
    exists r, simhubIN_parallel argsort vln vsum D train test s rd r.
  Proof.
    destruct (shi_checks D train test) as [[]|e] eqn:E.
    - eexists. eapply shp_ok; [assumption|apply pool_run_exists|apply pool_run_exists].
    - exists (Raise e). now apply shp_raise.
  Qed.
End P.
