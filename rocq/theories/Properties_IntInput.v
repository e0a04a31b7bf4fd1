(** Final theorems about matrices with an integer dtype (C152). *)
From Coq Require Import String.
From Coq Require Import ZArith List Arith Lia Bool Reals Permutation Lra.
From Flocq Require Import IEEE754.BinarySingleNaN.
From Verif Require Import Py Num NumT Arr Sort S_Neighbors M_IO M_Hubness M_SNN M_LS M_KNN M_MPEmpiric M_MPDist M_Simhub.
From Verif Require Import P_Neighbors P_Hubness Properties_Hubness M_IntInput S_IntInput.
Import ListNotations.
Local Open Scope py_scope.
Local Open Scope nat_scope.

Section Refused.
  Variable vtrunc : f64 -> Z.
  Context {A : Type}.
  Variable rest : arr2 Z -> result A.

  Lemma fill_inf D metric : fill_diagonal_int vtrunc D (hub_dself metric) = Raise OverflowError.
  Proof. unfold hub_dself. destruct (is_sim metric); reflexivity. Qed.
  Lemma of_self metric : int_of vtrunc (hub_dself metric) = Raise OverflowError.
  Proof. unfold hub_dself. destruct (is_sim metric); reflexivity. Qed.
  Lemma of_excl metric : int_of vtrunc (mp_exclude metric) = Raise OverflowError.
  Proof. unfold mp_exclude. destruct (is_sim metric); reflexivity. Qed.

  Lemma of_inf : int_of vtrunc ninf = Raise OverflowError.
  Proof. reflexivity. Qed.
  Lemma of_nan : int_of vtrunc nnan = Raise ValueError.
  Proof. reflexivity. Qed.

  Lemma cells_raise D idx v e : int_of vtrunc v = Raise e -> idx <> [] ->
    exists e', set_cells_int vtrunc D 0 idx v = Raise e'.
  Proof. intros H. destruct idx as [|s idx]; [congruence|]. intros _. cbn [set_cells_int].
    destruct (_ || _); cbn [guard bind]; [eauto|]. rewrite H. cbn [bind]. eauto. Qed.

  Lemma cells_raise_at D s idx v e : int_of vtrunc v = Raise e -> s < nrow D -> 0 < ncol D ->
    set_cells_int vtrunc D 0 (s :: idx) v = Raise e.
  Proof. intros H Hs Hc. cbn [set_cells_int]. apply Nat.leb_gt in Hs, Hc. rewrite Hs, Hc. cbn [orb guard bind].
    rewrite H. reflexivity. Qed.

  Lemma shape_some D idx : 0 < ncol D -> shape_int D (Some idx) = Ok tt -> idx <> [].
  Proof.
    intros Hc H E. subst idx. unfold shape_int, check_sample_shape_fits in H. destruct D as [r c f]. cbn [nrow ncol] in *.
    cbn [issparse check_is_nD_array dim0 dim1 size_of length orb guard bind Nat.eqb negb] in H.
    destruct c; [lia|]. cbn in H. destruct (r <=? c); cbn in H; discriminate.
  Qed.

  Lemma not_ok_guard {B} c e (x : result B) a : (c = false -> x <> Ok a) -> (guard c e ;; x) <> Ok a.
  Proof. intros H. destruct c; cbn; [discriminate|now apply H]. Qed.
  Lemma not_ok_bind {B C} (y : result B) (x : B -> result C) a : (forall b, y = Ok b -> x b <> Ok a) -> (let* b := y in x b) <> Ok a.
  Proof. intros H. destruct y; cbn; [now apply H|discriminate]. Qed.

  (** no call with an integer matrix returns a value *)
  Theorem C152_integer_matrices_are_refused : forall (D : arr2 Z), 0 < nrow D -> 0 < ncol D ->
    (forall k metric n_jobs seeded a, hubness_int vtrunc rest D k metric n_jobs seeded <> Ok a) /\
    (forall metric a, local_scaling_int vtrunc rest D metric <> Ok a) /\
    (forall metric train a, local_scaling_sample_int vtrunc rest D metric train <> Ok a) /\
    (forall metric a, nicdm_int vtrunc rest D metric <> Ok a) /\
    (forall metric train a, nicdm_sample_int vtrunc rest D metric train <> Ok a) /\
    (forall metric train a, snn_int vtrunc rest D metric train <> Ok a) /\
    (forall check_s s train a, simhub_int vtrunc rest check_s D s train <> Ok a) /\
    (forall metric idx test a, mp_empiric_int vtrunc rest D metric idx test <> Ok a) /\
    (forall metric idx a, mp_gaussi_int vtrunc rest D metric idx <> Ok a) /\
    (forall metric a, mp_gammai_int vtrunc rest D metric <> Ok a) /\
    (forall pred n_labels metric test sample r a, test <> Some [] ->
       knn_int vtrunc rest pred D n_labels metric test sample r <> Ok a).
  Proof.
    intros D Hr Hc.
    assert (CE : forall idx v e, int_of vtrunc v = Raise e -> shape_int D (Some idx) = Ok tt ->
       forall a, (let* D := set_cells_int vtrunc D 0 idx v in rest D) <> Ok a).
    { intros idx v e H Sh a. destruct (cells_raise D idx v e H (shape_some D idx Hc Sh)) as (e' & ->). cbn. discriminate. }
    assert (CO : forall (idx : option (list nat)) v e, int_of vtrunc v = Raise e -> shape_int D idx = Ok tt ->
       forall a, (let* D := match idx with None => fill_diagonal_int vtrunc D v | Some t => set_cells_int vtrunc D 0 t v end in rest D) <> Ok a).
    { intros [idx|] v e H Sh a; [now apply (CE idx v e)|]. unfold fill_diagonal_int. rewrite H. cbn. discriminate. }
    repeat split.
    - intros. apply not_ok_guard. intros _. apply not_ok_bind. intros _ _. apply not_ok_guard. intros _.
      destruct (_ =? _); [rewrite fill_inf; cbn; discriminate|]. cbn [bind]. unfold store_mask_int. rewrite of_self. cbn. discriminate.
    - intros. apply not_ok_bind. intros _ _. apply not_ok_bind. intros _ _. change (ls_exclude metric) with (hub_dself (V:=f64) metric).
      rewrite fill_inf. cbn. discriminate.
    - intros. apply not_ok_bind. intros [] Sh. apply not_ok_bind. intros _ _. apply not_ok_guard. intros _.
      apply (CE _ _ OverflowError (of_self metric) Sh).
    - intros. apply not_ok_bind. intros _ _. apply not_ok_bind. intros _ _. apply not_ok_guard. intros _. cbn. discriminate.
    - intros. apply not_ok_bind. intros [] Sh. apply not_ok_bind. intros _ _. apply not_ok_guard. intros _.
      apply (CE train ninf OverflowError of_inf Sh).
    - intros. apply not_ok_bind. intros [] Sh. apply not_ok_bind. intros _ _.
      apply (CO train (snn_exclude metric) OverflowError (of_self metric) Sh).
    - intros. apply not_ok_bind. intros [] Sh. apply not_ok_guard. intros _.
      apply (CO train ninf OverflowError of_inf Sh).
    - intros. apply not_ok_bind. intros [] Sh. apply not_ok_bind. intros _ _. apply not_ok_guard. intros _.
      apply (CO idx (mp_exclude metric) OverflowError (of_excl metric) Sh).
    - intros. apply not_ok_bind. intros [] Sh. apply not_ok_bind. intros _ _.
      apply (CO idx nnan ValueError of_nan Sh).
    - intros. apply not_ok_bind. intros _ _. apply not_ok_bind. intros _ _. cbn. discriminate.
    - intros pred nl metric test sample r a Ht. apply not_ok_bind. intros [] Sh. apply not_ok_bind. intros _ _. apply not_ok_bind. intros _ _.
      apply not_ok_guard. intros _. apply not_ok_guard. intros _. apply not_ok_guard. intros _.
      destruct sample as [s|]; [apply (CE s _ OverflowError (of_self metric) Sh)|].
      assert (K : forall i, (guard (nrow D <=? i) IndexError ;; let* z := int_of vtrunc (knn_self metric) in rest (set2 D i i z)) <> Ok a).
      { intros i. apply not_ok_guard. intros _. change (knn_self metric) with (hub_dself (V:=f64) metric). rewrite of_self. cbn. discriminate. }
      destruct test as [[|i t]|]; [congruence|apply K|]. destruct (nrow D) as [|n] eqn:E; [lia|]. cbn [seq]. rewrite <- E in *. apply K.
  Qed.

  Lemma square_ok (D : arr2 Z) : nrow D = ncol D -> check_distance_matrix_shape (Dense [nrow D; ncol D]) = Ok tt.
  Proof. intros ->. cbn. now rewrite Nat.eqb_refl. Qed.
  Lemma metric_ok metric : valid_metric metric = true -> check_valid_metric_parameter metric = Ok tt.
  Proof. unfold valid_metric, check_valid_metric_parameter. destruct (is_dist metric), (is_sim metric); cbn; congruence. Qed.

  (** with valid arguments the exception tells: infinity or NaN is no integer *)
  Theorem C152_which_exception : forall (D : arr2 Z) metric, 0 < nrow D -> nrow D = ncol D -> valid_metric metric = true ->
    (forall k n_jobs, (0 <= k)%Z -> hubness_int vtrunc rest D k metric n_jobs false = Raise OverflowError) /\
    local_scaling_int vtrunc rest D metric = Raise OverflowError /\
    nicdm_int vtrunc rest D "distance" = Raise OverflowError /\
    snn_int vtrunc rest D metric None = Raise OverflowError /\
    (forall s, simhub_int vtrunc rest false D s None = Raise OverflowError) /\
    mp_empiric_int vtrunc rest D metric None TNone = Raise OverflowError /\
    (forall pred r, knn_int vtrunc rest pred D (nrow D) metric None None r = Raise OverflowError) /\
    mp_gaussi_int vtrunc rest D metric None = Raise ValueError /\
    mp_gammai_int vtrunc rest D metric = Raise ValueError.
  Proof.
    intros D metric Hr Sq Hm. pose proof (metric_ok metric Hm) as M. pose proof (square_ok D Sq) as S.
    repeat split.
    - intros k n_jobs Hk. unfold hubness_int. rewrite andb_false_r, M. cbn [guard bind].
      replace (hub_k k (ncol D) <? 0)%Z with false.
      2:{ symmetry. apply Z.ltb_ge. unfold hub_k. destruct (Z.leb_spec (Z.of_nat (ncol D)) k); lia. }
      rewrite Sq, Nat.eqb_refl. cbn [guard bind]. rewrite fill_inf. reflexivity.
    - unfold local_scaling_int. rewrite S, M. cbn [bind]. change (ls_exclude metric) with (hub_dself (V:=f64) metric). rewrite fill_inf. reflexivity.
    - unfold nicdm_int. rewrite S. reflexivity.
    - unfold snn_int. cbn [shape_int]. rewrite S, M. cbn [bind]. change (snn_exclude metric) with (hub_dself (V:=f64) metric). rewrite fill_inf. reflexivity.
    - intros s. unfold simhub_int. cbn [shape_int]. rewrite S. reflexivity.
    - unfold mp_empiric_int. cbn [shape_int]. rewrite S, M. cbn [bind guard test_ind_rejected]. unfold fill_diagonal_int. rewrite of_excl. reflexivity.
    - intros pred r. unfold knn_int. cbn [shape_int]. rewrite S, M.
      assert (L : check_distance_matrix_shape_fits_labels (Dense [nrow D; ncol D]) (Dense [nrow D]) = Ok tt).
      { unfold check_distance_matrix_shape_fits_labels. cbn [check_is_nD_array shape_of length Nat.eqb negb guard bind size_of dim0 fold_right nth].
        unfold size_of, dim0. cbn [shape_of fold_right nth]. now rewrite Nat.mul_1_r, Nat.eqb_refl. }
      rewrite L.
      rewrite Nat.ltb_irrefl, andb_false_r. destruct pred; cbn [bind guard].
      all: destruct (nrow D) as [|n] eqn:E; [lia|]; cbn [seq]; rewrite <- E.
      all: replace (nrow D <=? 0) with false by (symmetry; apply Nat.leb_gt; lia); cbn [guard bind].
      all: change (knn_self metric) with (hub_dself (V:=f64) metric); rewrite of_self; reflexivity.
    - unfold mp_gaussi_int. cbn [shape_int]. rewrite S, M. reflexivity.
    - unfold mp_gammai_int. rewrite S, M. reflexivity.
  Qed.
End Refused.

Lemma xlt_IZR a b : xlt (XFin (IZR a)) (XFin (IZR b)) = (a <? b)%Z.
Proof.
  cbn. destruct (Rlt_dec (IZR a) (IZR b)) as [H|H]; destruct (Z.ltb_spec a b) as [K|K]; try reflexivity.
  - apply lt_IZR in H. lia.
  - exfalso. apply H, IZR_lt, K.
Qed.

(** a copy as float64 gives the right neighbours up to 2^53 *)
Theorem C152_float_copy_has_the_right_neighbours :
  forall (argpart : list f64 -> list nat -> list nat), argpart_ok argpart ->
  forall (D : arr2 Z) (k : nat) metric se rps,
    valid_metric metric = true -> 0 < nrow D -> nrow D = ncol D ->
    (forall i j, i < nrow D -> j < ncol D -> (Z.abs (at2 D i j) <= 2 ^ 53)%Z) ->
    (forall i, i < nrow D -> Permutation (rps i) (seq 0 (ncol D))) ->
    exists o, hubness_serial argpart false (to_f64 D) (Z.of_nat k) metric se rps = Ok o /\
      forall i, i < nrow D -> knn_list (int_nearer metric D i) (ncol D) (Nat.min k (ncol D - 1)) (nth i (out_Dk o) []).
Proof.
  intros argpart AP D k metric se rps Hm Hn Sq Hb Hp.
  destruct (C02_serial_neighbours_are_nearest argpart AP false (to_f64 D) k metric se rps) as (o & E & _ & _ & K); auto; [cbn; lia|].
  exists o. split; [exact E|]. intros i Hi. eapply knn_list_ext; [|exact (K i Hi)].
  intros x y Hx Hy. unfold int_nearer, eff, usable, nearer. cbn [to_f64 nrow ncol at2] in *. rewrite <- Sq in *. rewrite Nat.eqb_refl.
  assert (F : forall z, (Z.abs z <= 2 ^ 53)%Z -> f2x (nofZ (V:=f64) z) = XFin (IZR z)) by (intros; now apply f2x_ofZ).
  rewrite !(cl_fin _ _ _ f64_cmp), !F by (apply Hb; lia). cbn [xisfin andb].
  destruct (Nat.eqb_spec x i), (Nat.eqb_spec y i); cbn [negb andb orb]; unfold worst; destruct (is_sim metric);
    rewrite (cl_lt _ _ _ f64_cmp), ?(cl_inf _ _ _ f64_cmp), ?(cl_ninf _ _ _ f64_cmp), ?F by (apply Hb; lia);
    rewrite ?xlt_IZR; reflexivity.
Qed.

(** above 2^53 different integers become equal floats, and a farther object can
    be listed as the nearest *)
Theorem C152_float_copy_large_integers :
  exists (D : arr2 Z) o, nrow D = 3 /\ ncol D = 3 /\
    hubness_serial ref_argpart false (to_f64 D) 1 "distance" false (fun _ => []) = Ok o /\
    nth 0 (out_Dk o) [] = [1] /\ (0 < at2 D 0 2 < at2 D 0 1)%Z.
Proof.
  exists (Arr2 3 3 (fun i j => if i =? j then 0%Z else if i + j =? 1 then (2 ^ 53 + 1)%Z else (2 ^ 53)%Z)).
  eexists. repeat split; vm_compute; reflexivity.
Qed.

(** a matrix of edit distances: refused as integers; the float copy has object 1
    as nearest neighbour of 0, and 1 of 2 *)
Example C152_case : let D := Arr2 3 3 (fun i j => nth j (nth i [[0; 2; 5]; [2; 0; 3]; [5; 3; 0]]%Z []) 0%Z) in
  hubness_int (V:=f64) (fun _ => 0%Z) (fun D => Ok D) D 1 "distance" 1 false = Raise OverflowError /\
  match hubness_serial ref_argpart false (to_f64 D) 1 "distance" false (fun _ => []) with
  | Ok o => out_Dk o = [[1]; [0]; [1]] | Raise _ => False end.
Proof. split; vm_compute; reflexivity. Qed.

Print Assumptions C152_integer_matrices_are_refused.
Print Assumptions C152_which_exception.
Print Assumptions C152_float_copy_has_the_right_neighbours.
Print Assumptions C152_float_copy_large_integers.
