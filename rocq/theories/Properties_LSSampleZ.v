(** C200: index conventions of local scaling, NICDM and shared neighbours to a sample.
    [position] and [from_start] are those of C199. *)
From Coq Require Import String.
From Coq Require Import ZArith List Arith Lia Bool.
From Verif Require Import Py Num NumT Arr S_Neighbors M_IO M_SNN M_LS M_MPEmpiric M_Approx M_MPDist M_Predict M_SampleZ M_LSSampleZ Properties_SampleZ.
Import ListNotations.

Lemma scaled_rows_positions n s (train : list Z) test self (value : nat -> nat -> nat -> f64) :
  all_positions n train test ->
  scaled_rows n s train test self value =
  (let L := fold_left (fun M i => setrow M i 0 s (fun j => value i j (nth j (map (from_start n) train) 0)))
     (match option_map (map (from_start n)) test with None => seq 0 n | Some t => t end) (full2 n s n0) in
   match option_map (map (from_start n)) test with
   | None => Ok (fill_diagonal L self)
   | Some t => let M := set_cells (map (from_start n) train) self L in Ok (Arr2 (length t) s (fun a b => at2 M (nth a t 0) b))
   end).
Proof.
  intros (Hi & Ht). unfold scaled_rows. set (J := map (from_start n) train).
  rewrite (foldM_rows n (fun M i => setrow M i 0 s (fun j => value i j (nth j J 0)))).
  2:{ now apply rows_ok. }
  2:{ intros M z Hz. rewrite (proj1 (row_at_position _ _ Hz)). cbn [bind]. rewrite mapM_rows by exact Hi. reflexivity. }
  cbn [bind]. rewrite rows_nat. set (rows := match option_map _ test with None => _ | Some t => t end). cbv zeta.
  destruct (fold_setrow_dims (fun i j => value i j (nth j J 0)) s rows (full2 n s n0)) as (R & C). cbn [full2 nrow ncol] in R, C.
  set (L := fold_left _ rows _) in *. destruct test as [t|]; [|reflexivity].
  rewrite set_self_rows by (rewrite R; exact Hi). cbn [bind]. rewrite R. fold J. destruct (set_self_dims J self L) as (R2 & C2).
  rewrite select_rows by (rewrite R2, R; exact Ht). rewrite R2, R, C2, C. reflexivity.
Qed.
Lemma scaled_rows_outside n s (train t : list Z) self (value : nat -> nat -> nat -> f64) :
  (forall z, In z train -> position n z) -> some_not n t -> scaled_rows n s train (Some t) self value = Raise IndexError.
Proof.
  intros Hi H. unfold scaled_rows. cbn [rows_z]. erewrite (foldM_outside n); [reflexivity|exact H| |].
  - intros M z Hz. rewrite (proj1 (row_at_position _ _ Hz)). cbn [bind]. rewrite mapM_rows by exact Hi. cbn [bind]. eexists. reflexivity.
  - intros M z Hz. now rewrite row_at_outside.
Qed.
Lemma no_bad_test n test : match test with None => True | Some t => forall z, In z t -> position n z end ->
  match option_map (map (from_start n)) test with None => false | Some t => existsb (fun i => n <=? i) t end = false.
Proof. destruct test as [t|]; intros H; [cbn [option_map]; now apply no_bad|reflexivity]. Qed.
Lemma positions_dec n l : (forall z, In z l -> position n z) \/ some_not n l.
Proof.
  induction l as [|z l IH]; [left; intros z []|]. assert (Dz : position n z \/ ~ position n z) by (unfold position; lia).
  destruct Dz as [C|C]; [|right; exists z; split; [now left|exact C]]. destruct IH as [IH|(y & Hy & Q)]; [left; intros y [<-|Hy]; auto|right; exists y; split; [now right|exact Q]].
Qed.

(** ** Valid positions *)
Theorem C200_local_scaling_positions :
  forall vexp part (D : arr2 f64) k metric train test, all_positions (nrow D) train test ->
    local_scaling_sample_z vexp part D k metric train test =
    local_scaling_sample vexp part D k metric (map (from_start (nrow D)) train) (option_map (map (from_start (nrow D))) test).
Proof.
  intros vexp part D k metric train test (Hi & Ht). unfold local_scaling_sample_z, local_scaling_sample. rewrite map_length.
  destruct (check_sample_shape_fits _ _) as [[]|e]; [|reflexivity]. destruct (check_valid_metric_parameter metric) as [[]|e]; [|reflexivity]. cbn [bind].
  destruct (guard (is_sim metric) NotImplementedError) as [[]|e]; [|reflexivity]. cbn [bind]. cbv zeta. rewrite no_bad by exact Hi. cbn [guard bind].
  rewrite set_self_rows by exact Hi. cbn [bind]. change (set_self_cells (map (from_start (nrow D)) train)) with (set_cells (V := f64) (map (from_start (nrow D)) train)).
  destruct (mapM _ (seq 0 (nrow D))) as [r|e]; [|reflexivity]. cbn [bind].
  rewrite no_bad_test by exact Ht. cbn [guard bind]. rewrite scaled_rows_positions by (split; assumption). reflexivity.
Qed.

Theorem C200_nicdm_positions :
  forall vexp vln vsum part (D : arr2 f64) k metric train test, all_positions (nrow D) train test ->
    nicdm_sample_z vexp vln vsum part D k metric train test =
    nicdm_sample vexp vln vsum part D k metric (map (from_start (nrow D)) train) (option_map (map (from_start (nrow D))) test).
Proof.
  intros vexp vln vsum part D k metric train test (Hi & Ht). unfold nicdm_sample_z, nicdm_sample. rewrite map_length.
  destruct (check_sample_shape_fits _ _) as [[]|e]; [|reflexivity]. destruct (check_valid_metric_parameter metric) as [[]|e]; [|reflexivity]. cbn [bind].
  destruct (guard (is_sim metric) NotImplementedError) as [[]|e]; [|reflexivity]. cbn [bind]. cbv zeta. rewrite no_bad by exact Hi. cbn [guard bind].
  rewrite set_self_rows by exact Hi. cbn [bind]. change (set_self_cells (map (from_start (nrow D)) train)) with (set_cells (V := f64) (map (from_start (nrow D)) train)).
  destruct (mapM _ (seq 0 (nrow D))) as [r|e]; [|reflexivity]. cbn [bind].
  rewrite no_bad_test by exact Ht. cbn [guard bind]. rewrite scaled_rows_positions by (split; assumption). reflexivity.
Qed.

Theorem C200_shared_neighbours_positions :
  forall argsort (D : arr2 f64) k metric train test, all_positions (nrow D) train test ->
    snn_sample_z argsort D k metric train test =
    snn_sample argsort D k metric (map (from_start (nrow D)) train) (option_map (map (from_start (nrow D))) test).
Proof.
  intros argsort D k metric train test (Hi & Ht). unfold snn_sample_z, snn_sample. rewrite map_length.
  destruct (check_sample_shape_fits _ _) as [[]|e]; [|reflexivity]. destruct (check_valid_metric_parameter metric) as [[]|e]; [|reflexivity]. cbn [bind].
  cbv zeta. rewrite no_bad by exact Hi. cbn [guard bind]. rewrite no_bad_test by exact Ht. cbn [guard bind].
  rewrite set_self_rows by exact Hi. cbn [bind]. change (set_self_cells (map (from_start (nrow D)) train)) with (set_cells (V := f64) (map (from_start (nrow D)) train)).
  rewrite scaled_rows_positions by (split; assumption). reflexivity.
Qed.

(** ** Everything else is refused *)
Theorem C200_train_outside :
  forall vexp vln vsum part (D : arr2 f64) k train test,
    ncol D <= nrow D -> length train = ncol D -> some_not (nrow D) train ->
    local_scaling_sample_z vexp part D k "distance" train test = Raise IndexError /\
    nicdm_sample_z vexp vln vsum part D k "distance" train test = Raise IndexError.
Proof.
  intros vexp vln vsum part D k train test Hn Hl H. unfold local_scaling_sample_z, nicdm_sample_z.
  rewrite (shape_fits D train Hn Hl). cbn [bind]. change (check_valid_metric_parameter "distance") with (Ok tt). change (guard (is_sim "distance") NotImplementedError) with (Ok tt). cbn [bind].
  rewrite !set_self_outside by exact H. split; reflexivity.
Qed.

Theorem C200_shared_neighbours_outside :
  forall argsort (D : arr2 f64) k metric train test,
    ncol D <= nrow D -> length train = ncol D -> metric = "distance"%string \/ metric = "similarity"%string ->
    some_not (nrow D) train \/ (exists t, test = Some t /\ some_not (nrow D) t) ->
    snn_sample_z argsort D k metric train test = Raise IndexError.
Proof.
  intros argsort D k metric train test Hn Hl Hv H. unfold snn_sample_z. rewrite (shape_fits D train Hn Hl), (metric_fits metric Hv). cbn [bind].
  destruct (positions_dec (nrow D) train) as [Hi|Hb]; [|now rewrite set_self_outside by exact Hb].
  destruct H as [(z & Hz & Q)|(t & -> & H)]; [exfalso; auto|]. rewrite set_self_rows by exact Hi. cbn [bind]. now apply scaled_rows_outside.
Qed.

(** A held-out number that names no object is an IndexError in every call that would
    succeed without held-out objects, and never gives a result. *)
Theorem C200_test_outside :
  forall vexp vln vsum part (D : arr2 f64) k metric train t, some_not (nrow D) t ->
    (forall M, local_scaling_sample_z vexp part D k metric train (Some t) <> Ok M) /\
    (forall M, nicdm_sample_z vexp vln vsum part D k metric train (Some t) <> Ok M) /\
    (forall M, local_scaling_sample_z vexp part D k metric train None = Ok M ->
       local_scaling_sample_z vexp part D k metric train (Some t) = Raise IndexError) /\
    (forall M, nicdm_sample_z vexp vln vsum part D k metric train None = Ok M ->
       nicdm_sample_z vexp vln vsum part D k metric train (Some t) = Raise IndexError).
Proof.
  intros vexp vln vsum part D k metric train t H. unfold local_scaling_sample_z, nicdm_sample_z.
  destruct (check_sample_shape_fits _ _) as [[]|e]; [|repeat split; discriminate]. destruct (check_valid_metric_parameter metric) as [[]|e]; [|repeat split; discriminate]. cbn [bind].
  destruct (guard (is_sim metric) NotImplementedError) as [[]|e]; [|repeat split; discriminate]. cbn [bind].
  destruct (positions_dec (nrow D) train) as [Hi|Hb]; [|rewrite !set_self_outside by exact Hb; repeat split; discriminate].
  rewrite !set_self_rows by exact Hi. cbn [bind].
  destruct (mapM (ls_radius _ _ _ _) (seq 0 (nrow D))) as [r|e], (mapM (nicdm_radius _ _ _ _ _) (seq 0 (nrow D))) as [r'|e']; cbn [bind];
    rewrite ?scaled_rows_outside by assumption; repeat split; intros; congruence.
Qed.

(** ** The hypotheses can be met *)
Definition no_fun (x : f64) : f64 := x.
Definition no_sum (l : list f64) : f64 := hd n0 l.
Definition line3 : arr2 f64 := Arr2 3 2 (fun i j => nofnat (match i, j with 0, 0 => 4 | 0, _ => 0 | 1, 0 => 2 | 1, _ => 1 | _, 0 => 0 | _, _ => 4 end)).
Example C200_case : all_positions 3 [-1; 0]%Z (Some [-2]%Z) /\ map (from_start 3) [-1; 0]%Z = [2; 0] /\ map (from_start 3) [-2]%Z = [1] /\
  some_not 3 [-4; 0]%Z /\ some_not 3 [3]%Z /\
  (match local_scaling_sample_z no_fun (fun l _ => l) line3 1 "distance" [-1; 0]%Z None with Ok _ => true | _ => false end) = true /\
  (match nicdm_sample_z no_fun no_fun no_sum (fun l _ => l) line3 1 "distance" [-1; 0]%Z (Some [-2]%Z) with Ok M => (nrow M =? 1) && (ncol M =? 2) | _ => false end) = true /\
  (match nicdm_sample_z no_fun no_fun no_sum (fun l _ => l) line3 1 "distance" [-1; 0]%Z (Some [3]%Z) with Raise IndexError => true | _ => false end) = true.
Proof.
  split; [|split; [reflexivity|split; [reflexivity|split; [exists (-4)%Z|split; [exists 3%Z|split; [|split]]]]]].
  - split; intros z Hz; cbn in Hz; unfold position; lia.
  - unfold position. cbn. split; [auto|lia].
  - unfold position. cbn. split; [auto|lia].
  - vm_compute. reflexivity.
  - vm_compute. reflexivity.
  - vm_compute. reflexivity.
Qed.

Print Assumptions C200_local_scaling_positions.
Print Assumptions C200_nicdm_positions.
Print Assumptions C200_shared_neighbours_positions.
Print Assumptions C200_train_outside.
Print Assumptions C200_shared_neighbours_outside.
Print Assumptions C200_test_outside.
