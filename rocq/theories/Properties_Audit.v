(** Theorems added when the English statements were compared with the theorems once
    more: parts of a statement that had been proved in a weaker form only. *)
From Coq Require Import String.
From Coq Require Import ZArith List Arith Lia Bool Permutation Reals Lra.
From Verif Require Import Py Num NumT Arr S_Neighbors S_MP S_Approx S_MPDist M_IO M_MPEmpiric M_Approx M_MPDist.
From Verif Require Import P_MPEmpiric P_MPEmpiric2 P_ApproxMPG P_MPDist P_MPDist2 P_MPDist3 P_MPDist4 P_MPDist5 P_Hubness.
From Verif Require Import Properties_MPDist3.
Import ListNotations.
Local Open Scope nat_scope.

(** ** C124 (3): the cells that C124_gumbel_values does not speak of.  An object with
    too few neighbours keeps its row; if it comes first, the similarity of the
    other object to it is lost.  The diagonal of the others becomes 1. *)
Theorem C124_gumbel_few_neighbours :
  forall (g : R) (S : smat xr) m test M i j,
    gumbel g S m test = Ok M ->
    (row_nnz S i <= m -> sval M i j = sval S i j) /\
    (i < j -> row_nnz S i <= m -> m < row_nnz S j -> stored M j i = None) /\
    (m < row_nnz S i -> sval M i i = XFin 1).
Proof.
  intros g S m test M i j H. unfold gumbel, gumbel_sparse in H. apply bind_ok_inv in H as ([] & _ & H). injection H as <-.
  split; [|split].
  - intros L. unfold sval. rewrite sp_finish_kept by assumption. unfold sval, nonzero.
    destruct (stored S i j) as [v|]; cbn [oval].
    + destruct (neq v n0) eqn:E; cbn [negb]; [|reflexivity]. revert E. cbn. destruct v; try discriminate. xr_tac.
    + destruct (neq (V:=xr) n0 n0); reflexivity.
  - intros L P Q. now apply sp_finish_later.
  - intros L. unfold sval, sp_finish. cbn [stored]. cbv zeta. destruct (Nat.leb_spec (row_nnz S i) m); [lia|].
    rewrite Nat.leb_refl, Nat.eqb_refl. cbn [andb negb]. unfold lil, half, nonzero, sp_plus.
    assert (E : ndiv (V:=xr) n1 (nofZ 2) = XFin (1 / 2)) by xr_tac.
    rewrite E. replace (neq (XFin (1 / 2)) n0) with false by (cbn; destruct (Req_EM_T (1 / 2) 0); [lra|reflexivity]).
    cbn [negb oval]. unfold nonzero. replace (neq (nadd (XFin (1 / 2)) (XFin (1 / 2))) n0) with false
      by (cbn; destruct (Req_EM_T (1 / 2 + 1 / 2) 0); [lra|reflexivity]).
    cbn. f_equal. lra.
Qed.

(** four objects; the first is similar to one other only *)
Definition few_S : smat xr := SMat 4 4 (fun i j =>
  if i =? j then Some (XFin 1) else if (i =? 0) && (2 <=? j) || (j =? 0) && (2 <=? i) then None else Some (XFin (1 / INR (i + j + 1)))).
Example C124_few_case : exists M, gumbel (577 / 1000) few_S 2 None = Ok M /\ row_nnz few_S 0 <= 2 /\ 2 < row_nnz few_S 1 /\
  stored M 1 0 = None /\ sval M 0 1 = XFin (1 / INR 2) /\ sval M 1 1 = XFin 1.
Proof.
  assert (E : exists M, gumbel (577 / 1000) few_S 2 None = Ok M).
  { unfold gumbel, gumbel_sparse. replace (unit_diagonal few_S) with true; [eexists; reflexivity|].
    unfold unit_diagonal. cbn. destruct (Req_EM_T 1 1); [reflexivity|congruence]. }
  destruct E as (M & E). exists M. split; [exact E|].
  assert (A : row_nnz few_S 0 <= 2) by (cbn; lia). assert (B : 2 < row_nnz few_S 1) by (cbn; lia).
  destruct (C124_gumbel_few_neighbours _ few_S 2 None M 0 1 E) as (P & Q & _).
  destruct (C124_gumbel_few_neighbours _ few_S 2 None M 1 1 E) as (_ & _ & R).
  split; [exact A|]. split; [exact B|]. split; [apply Q; [lia|exact A|exact B]|].
  split; [rewrite (P A); reflexivity|exact (R B)].
Qed.

Print Assumptions C124_gumbel_few_neighbours.
