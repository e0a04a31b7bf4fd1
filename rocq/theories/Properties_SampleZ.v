(** Property C199: negative and invalid indices of sampled and held-out objects in Mutual
    Proximity to a sample. *)
From Coq Require Import String.
From Coq Require Import ZArith List Arith Lia Bool.
From Verif Require Import Py Num NumT Arr S_Neighbors M_IO M_MPEmpiric M_Approx M_MPDist M_Predict M_SampleZ.
Import ListNotations.
Local Open Scope nat_scope.

(** ** Specification *)
(** the positions an array of [n] rows has, counted from either end *)
Definition position (n : nat) (z : Z) : Prop := (- Z.of_nat n <= z < Z.of_nat n)%Z.
(** the same position counted from the start *)
Definition from_start (n : nat) (z : Z) : nat := Z.to_nat (z mod Z.of_nat n).

Lemma row_at_position n z : position n z -> row_at n z = Ok (from_start n z) /\ from_start n z < n.
Proof.
  intros (H1 & H2). unfold row_at, from_start. destruct (Z.leb_spec 0 z) as [C|C]; cbn [andb].
  - rewrite (proj2 (Z.ltb_lt z _)) by lia. rewrite Z.mod_small by lia. split; [reflexivity|lia].
  - rewrite (proj2 (Z.leb_le _ z)), (proj2 (Z.ltb_lt z 0)) by lia. cbn [andb].
    assert (E : (z mod Z.of_nat n = Z.of_nat n + z)%Z) by (symmetry; apply (Z.mod_unique z (Z.of_nat n) (-1)); lia).
    rewrite E. split; [reflexivity|lia].
Qed.
Lemma row_at_outside n z : ~ position n z -> row_at n z = Raise IndexError.
Proof.
  intros H. unfold row_at, position in *. destruct (Z.leb_spec 0 z), (Z.ltb_spec z (Z.of_nat n)), (Z.leb_spec (- Z.of_nat n) z), (Z.ltb_spec z 0); cbn [andb]; try reflexivity; exfalso; lia.
Qed.
Lemma mapM_rows n l : (forall z, In z l -> position n z) -> mapM (row_at n) l = Ok (map (from_start n) l).
Proof.
  induction l as [|z l IH]; intros H; [reflexivity|]. cbn [mapM map]. rewrite (proj1 (row_at_position n z (H z (or_introl eq_refl)))). cbn [bind].
  rewrite IH by (intros y Hy; apply H; now right). reflexivity.
Qed.
Lemma mapM_outside n l : (exists z, In z l /\ ~ position n z) -> mapM (row_at n) l = Raise IndexError.
Proof.
  induction l as [|z l IH]; intros (y & Hy & Hn); [contradiction|]. cbn [mapM].
  assert (Dec : position n z \/ ~ position n z) by (unfold position; lia).
  destruct Dec as [C|C]; [|now rewrite row_at_outside]. rewrite (proj1 (row_at_position n z C)). cbn [bind].
  rewrite IH; [reflexivity|]. destruct Hy as [->|Hy]; [contradiction|now exists y].
Qed.
Lemma foldM_rows {S} n (body : S -> nat -> S) (g : S -> Z -> result S) l s :
  (forall z, In z l -> position n z) -> (forall s z, position n z -> g s z = Ok (body s (from_start n z))) ->
  foldM g l s = Ok (fold_left body (map (from_start n) l) s).
Proof.
  revert s. induction l as [|z l IH]; intros s H Hg; [reflexivity|]. cbn [foldM map fold_left]. rewrite Hg by (apply H; now left). cbn [bind].
  apply IH; [intros y Hy; apply H; now right|exact Hg].
Qed.
Lemma foldM_outside {S} n (g : S -> Z -> result S) l s :
  (exists z, In z l /\ ~ position n z) -> (forall s z, position n z -> exists s', g s z = Ok s') -> (forall s z, ~ position n z -> g s z = Raise IndexError) ->
  foldM g l s = Raise IndexError.
Proof.
  revert s. induction l as [|z l IH]; intros s (y & Hy & Hn) Hg Ho; [contradiction|]. cbn [foldM].
  assert (Dec : position n z \/ ~ position n z) by (unfold position; lia).
  destruct Dec as [C|C]; [destruct (Hg s z C) as (s' & E); rewrite E|now rewrite Ho]. cbn [bind]. apply IH; [|exact Hg|exact Ho]. destruct Hy as [->|Hy]; [contradiction|now exists y].
Qed.
Lemma rows_from_start n : map (from_start n) (map Z.of_nat (seq 0 n)) = seq 0 n.
Proof.
  rewrite map_map. rewrite <- (map_id (seq 0 n)) at 2. apply map_ext_in. intros x Hx. apply in_seq in Hx. unfold from_start. rewrite Z.mod_small by lia. lia.
Qed.

Section Gen.
  Context {V : Type} {N : Num V}.
  Lemma set_self_shape (v : V) l (D : arr2 V) idx : nrow (fold_left (fun M j => set2 M (nth j idx 0) j v) l D) = nrow D /\ ncol (fold_left (fun M j => set2 M (nth j idx 0) j v) l D) = ncol D.
  Proof. revert D. induction l as [|j l IH]; intros D; [auto|]. cbn [fold_left]. apply (IH (set2 D (nth j idx 0) j v)). Qed.
  Lemma set_self_dims idx (v : V) D : nrow (set_self_cells idx v D) = nrow D /\ ncol (set_self_cells idx v D) = ncol D.
  Proof. apply set_self_shape. Qed.
  Lemma set_self_rows idx (v : V) (D : arr2 V) : (forall z, In z idx -> position (nrow D) z) ->
    set_self_z idx v D = Ok (set_self_cells (map (from_start (nrow D)) idx) v D).
  Proof.
    intros H. unfold set_self_z, set_self_cells, for_. rewrite map_length.
    assert (G : forall l (M : arr2 V), (forall j, In j l -> j < length idx) ->
      foldM (fun M j => let* i := row_at (nrow D) (nth j idx 0%Z) in Ok (set2 M i j v))%py l M =
      Ok (fold_left (fun s i => set2 s (nth i (map (from_start (nrow D)) idx) 0) i v) l M)).
    { induction l as [|j l IH]; intros M Hl; [reflexivity|]. cbn [foldM fold_left]. assert (Hj : j < length idx) by (apply Hl; now left).
      rewrite (proj1 (row_at_position (nrow D) _ (H _ (nth_In idx 0%Z Hj)))). cbn [bind]. rewrite (nth_indep (map _ idx) 0 (from_start (nrow D) 0%Z)) by (rewrite map_length; exact Hj). rewrite map_nth.
      apply IH. intros x Hx. apply Hl. now right. }
    apply G. intros j Hj. apply in_seq in Hj. lia.
  Qed.
  Lemma set_self_outside idx (v : V) (D : arr2 V) : (exists z, In z idx /\ ~ position (nrow D) z) -> set_self_z idx v D = Raise IndexError.
  Proof.
    intros (z & Hz & Hn). apply (In_nth _ _ 0%Z) in Hz as (p & Hp & Ep). unfold set_self_z.
    assert (G : forall l (M : arr2 V), In p l -> foldM (fun M j => let* i := row_at (nrow D) (nth j idx 0%Z) in Ok (set2 M i j v))%py l M = Raise IndexError).
    { induction l as [|j l IH]; intros M Hl; [contradiction|]. cbn [foldM].
      destruct (Nat.eq_dec j p) as [->|Hjp]; [rewrite Ep, row_at_outside by exact Hn; reflexivity|].
      assert (Dec : position (nrow D) (nth j idx 0%Z) \/ ~ position (nrow D) (nth j idx 0%Z)) by (unfold position; lia).
      destruct Dec as [C|C]; [rewrite (proj1 (row_at_position _ _ C))|now rewrite row_at_outside]. cbn [bind]. apply IH. destruct Hl as [Hl|Hl]; [congruence|exact Hl]. }
    apply G. apply in_seq. lia.
  Qed.
  Lemma select_rows (M : arr2 V) test : match test with None => True | Some t => forall z, In z t -> position (nrow M) z end ->
    select_z M test = match option_map (map (from_start (nrow M))) test with None => Ok M | Some t => Ok (Arr2 (length t) (ncol M) (fun a b => at2 M (nth a t 0) b)) end.
  Proof. destruct test as [t|]; intros H; [|reflexivity]. cbn [select_z option_map]. now rewrite mapM_rows. Qed.
  Lemma no_bad n l : (forall z, In z l -> position n z) -> existsb (fun s => n <=? s) (map (from_start n) l) = false.
  Proof.
    induction l as [|z l IH]; intros H; [reflexivity|]. cbn [map existsb]. rewrite IH by (intros y Hy; apply H; now right).
    destruct (row_at_position n z (H z (or_introl eq_refl))) as (_ & L). now rewrite (proj2 (Nat.leb_gt n _)) by exact L.
  Qed.
End Gen.

Lemma fold_setrow_dims {V} (g : nat -> nat -> V) c rows (M : arr2 V) :
  nrow (fold_left (fun M i => setrow M i 0 c (g i)) rows M) = nrow M /\ ncol (fold_left (fun M i => setrow M i 0 c (g i)) rows M) = ncol M.
Proof. revert M. induction rows as [|i rows IH]; intros M; [auto|]. cbn [fold_left]. apply (IH (setrow M i 0 c (g i))). Qed.
Lemma rows_ok n test : match test with None => True | Some t => forall z, In z t -> position n z end -> forall z, In z (rows_z n test) -> position n z.
Proof. destruct test as [t|]; intros H z Hz; [now apply H|]. cbn in Hz. apply in_map_iff in Hz as (x & <- & Hx). apply in_seq in Hx. unfold position. lia. Qed.
Lemma rows_nat n test : map (from_start n) (rows_z n test) = match option_map (map (from_start n)) test with None => seq 0 n | Some t => t end.
Proof. destruct test; [reflexivity|apply rows_from_start]. Qed.

(** ** Valid positions: counting from the end is the same as counting from the start *)
Definition all_positions (n : nat) (idx : list Z) (test : option (list Z)) : Prop :=
  (forall z, In z idx -> position n z) /\ match test with None => True | Some t => forall z, In z t -> position n z end.

Theorem C199_empiric_positions :
  forall (D : arr2 f64) idx metric test, all_positions (nrow D) idx test ->
    mp_empiric_sample_z D idx metric test =
    mp_empiric_sample D (map (from_start (nrow D)) idx) metric (option_map (map (from_start (nrow D))) test).
Proof.
  intros D idx metric test (Hi & Ht). unfold mp_empiric_sample_z, mp_empiric_sample. rewrite map_length.
  destruct (check_sample_shape_fits _ _) as [[]|e]; [|reflexivity]. destruct (check_valid_metric_parameter metric) as [[]|e]; [|reflexivity]. cbn [bind].
  rewrite no_bad by exact Hi. cbn [guard bind].
  replace (match option_map (map (from_start (nrow D))) test with None => false | Some t => existsb (fun s => nrow D <=? s) t end) with false
    by (destruct test as [t|]; cbn [option_map]; [now rewrite no_bad|reflexivity]). cbn [guard bind].
  rewrite set_self_rows by exact Hi. cbn [bind]. set (J := map (from_start (nrow D)) idx). set (D1 := set_self_cells J (mp_exclude metric) D).
  rewrite (foldM_rows (nrow D) (fun M i => setrow M i 0 (ncol D1) (fun j => mp_value metric (ncol D1) (at2 D1 i) (at2 D1 (nth j J 0)) (at2 D1 i j) (ncol D1)))).
  2:{ now apply rows_ok. }
  2:{ intros M z Hz. rewrite (proj1 (row_at_position _ _ Hz)). cbn [bind]. rewrite mapM_rows by exact Hi. reflexivity. }
  cbn [bind]. rewrite rows_nat. set (rows := match option_map _ test with None => _ | Some t => t end).
  destruct (fold_setrow_dims (fun i j => mp_value metric (ncol D1) (at2 D1 i) (at2 D1 (nth j J 0)) (at2 D1 i j) (ncol D1)) (ncol D1) rows (full2 (nrow D) (ncol D) nnan)) as (R & C).
  unfold mp_sample_loop. set (M := fold_left _ rows _) in *. cbn [full2 nrow ncol] in R, C.
  rewrite set_self_rows by (rewrite R; exact Hi). cbn [bind]. rewrite R. fold J. destruct (set_self_dims J (mp_self metric) M) as (R2 & C2).
  rewrite select_rows by (rewrite R2, R; exact Ht). rewrite R2, R, C2, C. reflexivity.
Qed.

Theorem C199_gaussian_positions :
  forall vsum vcdf vsf (D : arr2 f64) idx metric test, all_positions (nrow D) idx test ->
    gaussi_sample_z vsum vcdf vsf D idx metric test =
    gaussi_sample vsum vcdf vsf D (map (from_start (nrow D)) idx) metric (option_map (map (from_start (nrow D))) test).
Proof.
  intros vsum vcdf vsf D idx metric test (Hi & Ht). unfold gaussi_sample_z, gaussi_sample. rewrite map_length.
  destruct (check_sample_shape_fits _ _) as [[]|e]; [|reflexivity]. destruct (check_valid_metric_parameter metric) as [[]|e]; [|reflexivity]. cbn [bind].
  rewrite no_bad by exact Hi. cbn [guard bind]. rewrite mapM_rows by exact Hi. cbn [bind].
  rewrite set_self_rows by exact Hi. cbn [bind]. set (J := map (from_start (nrow D)) idx). set (D1 := set_self_cells J nnan D).
  destruct (set_self_dims J nnan D) as (R1 & C1). fold D1 in R1, C1. cbv zeta.
  rewrite set_self_rows by (rewrite R1; exact Hi). cbn [bind]. rewrite R1. fold J. set (D2 := set_self_cells J (mp_self metric) D1).
  rewrite (foldM_rows (nrow D) (fun M i => setrow M i 0 (ncol D) (fun j => gi_value vcdf vsf metric (at2 D2 i j) (vmean_ vsum (nonnan (rowl D1 i))) (no_zero (vstd vsum (nonnan (rowl D1 i))))
     (vmean_ vsum (nonnan (rowl D1 (nth j J 0)))) (no_zero (vstd vsum (nonnan (rowl D1 (nth j J 0)))))))).
  2:{ now apply rows_ok. }
  2:{ intros M z Hz. rewrite (proj1 (row_at_position _ _ Hz)). cbn [bind]. rewrite ?mapM_rows by exact Hi. reflexivity. }
  cbn [bind]. rewrite rows_nat. set (rows := match option_map _ test with None => _ | Some t => t end).
  match goal with |- context [fold_left (fun M i => setrow M i 0 ?c (@?g i)) rows ?m0] => destruct (fold_setrow_dims g c rows m0) as (R & C) end.
  set (M := fold_left _ rows _) in *. cbn [full2 nrow ncol] in R, C.
  rewrite set_self_rows by (rewrite R; exact Hi). cbn [bind]. rewrite R. fold J. destruct (set_self_dims J (mp_self metric) M) as (R2 & C2).
  rewrite select_rows by (rewrite R2, R; exact Ht). rewrite R2, R, C2, C. unfold rows in M. destruct test as [t|]; cbn [option_map] in *.
  - rewrite no_bad by exact Ht. cbn [guard bind]. reflexivity.
  - reflexivity.
Qed.

Lemma foldM_plain {S} (body : S -> nat -> S) (g : S -> nat -> result S) l s :
  (forall s i, g s i = Ok (body s i)) -> foldM g l s = Ok (fold_left body l s).
Proof. intros H. revert s. induction l as [|i l IH]; intros s; [reflexivity|]. cbn [foldM fold_left]. rewrite H. cbn [bind]. apply IH. Qed.

Theorem C199_gaussian_idx_positions :
  forall vsum vcdf vsf (D : arr2 f64) metric sample_size test idx, (forall z, In z idx -> position (nrow D) z) ->
    gaussi_idx_z vsum vcdf vsf D metric sample_size test idx =
    gaussi vsum vcdf vsf D metric sample_size test (Some (map (from_start (nrow D)) idx)).
Proof.
  intros vsum vcdf vsf D metric ss test idx Hi. unfold gaussi_idx_z, gaussi. rewrite map_length.
  destruct (check_sample_shape_fits _ _) as [[]|e]; [|reflexivity]. destruct (check_valid_metric_parameter metric) as [[]|e]; [|reflexivity]. cbn [bind].
  rewrite no_bad by exact Hi. cbn [guard bind]. unfold gaussi_rows.
  rewrite set_self_rows by exact Hi. cbn [bind]. set (J := map (from_start (nrow D)) idx). set (D1 := set_self_cells J nnan D).
  destruct (set_self_dims J nnan D) as (R1 & C1). fold D1 in R1, C1. cbv zeta.
  rewrite set_self_rows by (rewrite R1; exact Hi). cbn [bind]. rewrite R1. fold J. set (D2 := set_self_cells J (mp_self metric) D1).
  rewrite mapM_rows by exact Hi. cbn [bind]. fold J.
  rewrite (foldM_plain (fun M i => setrow M i 0 (ncol D) (fun j => gi_value vcdf vsf metric (at2 D2 i j) (vmean_ vsum (nonnan (rowl D1 i))) (no_zero (vstd vsum (nonnan (rowl D1 i))))
     (vmean_ vsum (nonnan (rowl D1 (nth j J 0)))) (no_zero (vstd vsum (nonnan (rowl D1 (nth j J 0)))))))) by reflexivity.
  cbn [bind].
  match goal with |- context [fold_left (fun M i => setrow M i 0 ?c (@?g i)) ?rows ?m0] => destruct (fold_setrow_dims g c rows m0) as (R & C) end.
  set (M := fold_left _ (seq 0 (nrow D)) _) in *. cbn [full2 nrow ncol] in R.
  rewrite set_self_rows by (rewrite R; exact Hi). rewrite R. reflexivity.
Qed.

(** ** Everything else is refused *)
Definition some_not (n : nat) (l : list Z) : Prop := exists z, In z l /\ ~ position n z.

Lemma shape_fits {V} (D : arr2 V) (idx : list Z) : ncol D <= nrow D -> length idx = ncol D -> check_sample_shape_fits (Dense [nrow D; ncol D]) (Dense [length idx]) = Ok tt.
Proof. intros Hn Hl. unfold check_sample_shape_fits, size_of. cbn [issparse orb guard bind check_is_nD_array dim0 dim1]. rewrite Hl. cbn -[Nat.ltb Nat.eqb Nat.mul]. rewrite (proj2 (Nat.ltb_ge (nrow D) (ncol D)) Hn). cbn -[Nat.eqb]. rewrite ?Nat.mul_1_r, ?Nat.mul_1_l, ?Nat.add_0_r, !Nat.eqb_refl. reflexivity. Qed.
Lemma metric_fits metric : metric = "distance"%string \/ metric = "similarity"%string -> check_valid_metric_parameter metric = Ok tt.
Proof. intros Hv. destruct Hv as [-> | ->]; reflexivity. Qed.

Theorem C199_outside :
  forall vsum vcdf vsf (D : arr2 f64) idx metric test,
    ncol D <= nrow D -> length idx = ncol D -> metric = "distance"%string \/ metric = "similarity"%string ->
    some_not (nrow D) idx \/ (exists t, test = Some t /\ some_not (nrow D) t) ->
    mp_empiric_sample_z D idx metric test = Raise IndexError /\
    gaussi_sample_z vsum vcdf vsf D idx metric test = Raise IndexError.
Proof.
  intros vsum vcdf vsf D idx metric test Hn Hl Hv H.
  pose proof (shape_fits D idx Hn Hl) as Ck. pose proof (metric_fits metric Hv) as Cm.
  unfold mp_empiric_sample_z, gaussi_sample_z. rewrite Ck, Cm. cbn [bind].
  assert (Dec : (forall z, In z idx -> position (nrow D) z) \/ some_not (nrow D) idx).
  { clear. induction idx as [|z l IH]; [left; intros z []|]. assert (Dz : position (nrow D) z \/ ~ position (nrow D) z) by (unfold position; lia).
    destruct Dz as [C|C]; [|right; exists z; split; [now left|exact C]]. destruct IH as [IH|(y & Hy & Q)]; [left; intros y [<-|Hy]; auto|right; exists y; split; [now right|exact Q]]. }
  destruct Dec as [Hi|Hb]; [|rewrite !set_self_outside, mapM_outside by exact Hb; split; reflexivity].
  destruct H as [H|(t & -> & H)]; [exfalso; destruct H as (z & Hz & Q); auto|].
  destruct (set_self_dims (map (from_start (nrow D)) idx) nnan D) as (R1 & C1).
  rewrite !set_self_rows by exact Hi. rewrite mapM_rows by exact Hi. cbn [bind]. cbv zeta. cbn [rows_z]. split.
  - erewrite (foldM_outside (nrow D)); [reflexivity|exact H| |].
    + intros M z Hz. rewrite (proj1 (row_at_position _ _ Hz)). cbn [bind]. rewrite ?mapM_rows by exact Hi. cbn [bind]. eexists. reflexivity.
    + intros M z Hz. now rewrite row_at_outside.
  - rewrite set_self_rows by (rewrite R1; exact Hi). cbn [bind].
    erewrite (foldM_outside (nrow D)); [reflexivity|exact H| |].
    + intros M z Hz. rewrite (proj1 (row_at_position _ _ Hz)). cbn [bind]. rewrite ?mapM_rows by exact Hi. cbn [bind]. eexists. reflexivity.
    + intros M z Hz. now rewrite row_at_outside.
Qed.

Theorem C199_gaussian_idx_outside :
  forall vsum vcdf vsf (D : arr2 f64) metric sample_size test idx,
    ncol D <= nrow D -> length idx = ncol D -> metric = "distance"%string \/ metric = "similarity"%string ->
    some_not (nrow D) idx -> gaussi_idx_z vsum vcdf vsf D metric sample_size test idx = Raise IndexError.
Proof.
  intros vsum vcdf vsf D metric ss test idx Hn Hl Hv H. unfold gaussi_idx_z. rewrite (shape_fits D idx Hn Hl), (metric_fits metric Hv). cbn [bind].
  now rewrite set_self_outside by exact H.
Qed.

Theorem C199_sparse_refused :
  forall (S : smat f64) idx metric test, mp_empiric_sample_sparse S idx metric test = Raise TypeError.
Proof. reflexivity. Qed.

(** ** The hypotheses can be met *)
Example C199_case : all_positions 4 [-1; 0; 2]%Z (Some [-4; 3]%Z) /\ map (from_start 4) [-1; 0; 2]%Z = [3; 0; 2] /\ some_not 4 [-5; 1]%Z /\ some_not 4 [4]%Z.
Proof.
  split; [|split; [reflexivity|split; [exists (-5)%Z|exists 4%Z]]].
  - split; intros z Hz; cbn in Hz; unfold position; lia.
  - unfold position. cbn. split; [auto|lia].
  - unfold position. cbn. split; [auto|lia].
Qed.

Print Assumptions C199_empiric_positions.
Print Assumptions C199_gaussian_positions.
Print Assumptions C199_gaussian_idx_positions.
Print Assumptions C199_outside.
Print Assumptions C199_gaussian_idx_outside.
Print Assumptions C199_sparse_refused.
