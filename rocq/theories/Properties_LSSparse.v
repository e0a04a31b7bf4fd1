(** Property C121: arguments the local scaling functions document but never
    accept (local_scaling.py, shared_neighbors.py:52-168). *)
From Coq Require Import String.
From Coq Require Import ZArith List Arith Lia Bool.
From Verif Require Import Py Num Arr Sort Conc S_Neighbors M_IO M_SNN M_LS M_MPEmpiric M_SNNSample M_LSSparse.
Import ListNotations.
Local Open Scope nat_scope.

Section C121.
  Context {V : Type} {N : Num V}.
  Variables (vexp vln : V -> V) (vsum : list V -> V).
  Variable part : list V -> list nat -> list V.
  Variable argsort : list V -> list nat.

  (** ** C121 (1): no sparse matrix is ever accepted, whatever the other
      arguments are. *)
  Theorem C121_sparse_never_accepted :
    forall (A : smat V) k metric train test (cpu : nat) (jobs : Z),
      (forall r, local_scaling_any vexp part (MSparse A) k metric test cpu jobs r -> is_ok r = false) /\
      (forall r, nicdm_any vexp vln vsum part (MSparse A) k metric test cpu jobs r -> is_ok r = false) /\
      local_scaling_sample_any vexp part (MSparse A) k metric train test = Raise TypeError /\
      nicdm_sample_any vexp vln vsum part (MSparse A) k metric train test = Raise TypeError /\
      (forall r, snn_sample_any argsort (MSparse A) k metric train test (Z.of_nat cpu) jobs r ->
                 r = Raise TypeError).
  Proof.
    intros A k metric train test cpu jobs.
    split; [|split; [|split; [reflexivity|split; [reflexivity|]]]].
    - intros r H. inversion H as [D r' E H'|Sm E]; [discriminate|]. injection E as <-.
      destruct (check_distance_matrix_shape _) as [[]|e]; [|reflexivity]. cbn [bind].
      destruct (check_valid_metric_parameter metric) as [[]|e]; [|reflexivity]. cbn [bind].
      destruct (guard _ _) as [[]|e]; [|reflexivity]. cbn [bind]. unfold ls_sparse_radii.
      destruct (mapM _ _); reflexivity.
    - intros r H. inversion H as [D r' E H'|Sm E]; [discriminate|]. injection E as <-.
      destruct (check_distance_matrix_shape _) as [[]|e]; [|reflexivity]. cbn [bind].
      destruct (check_valid_metric_parameter metric) as [[]|e]; [|reflexivity]. cbn [bind].
      destruct (guard _ _) as [[]|e]; reflexivity.
    - intros r H. inversion H as [D t r' E|E]; [discriminate|]. reflexivity.
  Qed.

  (** ** C121 (2): which exception a square sparse matrix meets: the documented
      one for sparse distances in local_scaling, an indexing error from inside
      where local_scaling announces 'experimental' support of similarities and
      in nicdm. *)
  Theorem C121_sparse_exceptions :
    forall (A : smat V) k test (cpu : nat) (jobs : Z),
      srow A = scol A -> 0 < srow A ->
      (forall r, local_scaling_any vexp part (MSparse A) k "similarity" test cpu jobs r ->
                 r = Raise IndexError) /\
      (forall r, local_scaling_any vexp part (MSparse A) k "distance" test cpu jobs r ->
                 r = Raise NotImplementedError) /\
      (forall r, nicdm_any vexp vln vsum part (MSparse A) k "distance" test cpu jobs r ->
                 r = Raise IndexError) /\
      (forall r, nicdm_any vexp vln vsum part (MSparse A) k "similarity" test cpu jobs r ->
                 r = Raise NotImplementedError) /\
      (exists r, local_scaling_any vexp part (MSparse A) k "similarity" test cpu jobs r) /\
      (exists r, nicdm_any vexp vln vsum part (MSparse A) k "distance" test cpu jobs r).
  Proof.
    intros A k test cpu jobs Hsq Hn.
    assert (CK : check_distance_matrix_shape (shape_arg (MSparse A)) = Ok tt).
    { unfold check_distance_matrix_shape, check_is_nD_array, guard, dim0, dim1. cbn.
      rewrite Hsq, Nat.eqb_refl. reflexivity. }
    split; [|split; [|split; [|split; [|split]]]].
    - intros r H. inversion H as [D r' E H'|Sm E]; [discriminate|]. injection E as <-.
      rewrite CK. cbn [bind]. change (check_valid_metric_parameter "similarity") with (Ok tt).
      cbn [bind is_sim]. change (guard (negb (is_sim "similarity")) NotImplementedError) with (Ok tt).
      cbn [bind]. unfold ls_sparse_radii. destruct (srow A); [lia|]. reflexivity.
    - intros r H. inversion H as [D r' E H'|Sm E]; [discriminate|]. injection E as <-.
      rewrite CK. reflexivity.
    - intros r H. inversion H as [D r' E H'|Sm E]; [discriminate|].
      rewrite CK. reflexivity.
    - intros r H. inversion H as [D r' E H'|Sm E]; [discriminate|].
      rewrite CK. reflexivity.
    - eexists. eapply lsa_sparse. reflexivity.
    - eexists. eapply nia_sparse. reflexivity.
  Qed.

  (** ** C121 (3): [train_ind] has the default None in all three _sample
      functions, but leaving it out always raises TypeError. *)
  Theorem C121_train_ind_cannot_be_omitted :
    forall (A : matarg V) k metric test (cpu jobs : Z),
      local_scaling_sample_any vexp part A k metric None test = Raise TypeError /\
      nicdm_sample_any vexp vln vsum part A k metric None test = Raise TypeError /\
      (exists r, snn_sample_any argsort A k metric None test cpu jobs r) /\
      (forall r, snn_sample_any argsort A k metric None test cpu jobs r -> r = Raise TypeError).
  Proof.
    intros [D|A] k metric test cpu jobs; (split; [reflexivity|]; split; [reflexivity|]).
    - split; [eexists; eapply ssa_other; discriminate|].
      intros r H. inversion H as [D' t r' E E'|E]; [discriminate|]. reflexivity.
    - split; [eexists; eapply ssa_other; discriminate|].
      intros r H. inversion H as [D' t r' E E'|E]; [discriminate|]. reflexivity.
  Qed.
End C121.

(** a sparse similarity matrix of two objects meets the hypotheses *)
Definition exSp : smat f64 := SMat 2 2 (fun i j => Some (if i =? j then n1 else n0)).
Example C121_case : srow exSp = scol exSp /\ 0 < srow exSp.
Proof. split; [reflexivity|]. cbn. lia. Qed.

Print Assumptions C121_sparse_never_accepted.
Print Assumptions C121_sparse_exceptions.
Print Assumptions C121_train_ind_cannot_be_omitted.
