(** Specification for sparse matrices in memory (C168). *)
From Coq Require Import List Arith Sorted Permutation.
From Verif Require Import Py Num M_MPEmpiric M_CsrRaw.
Import ListNotations.

(** a csr matrix: as many values as columns in every row, no column stored
    twice, no column outside *)
Record csr_ok {V} (S : csr V) : Prop := {
  co_rows : length (c_dat S) = length (c_idx S);
  co_vals : forall i, length (nth i (c_dat S) []) = length (nth i (c_idx S) []);
  co_once : forall i, NoDup (nth i (c_idx S) []);
  co_cols : forall i j, In j (nth i (c_idx S) []) -> j < c_cols S }.

(** the columns of row i are stored in ascending order *)
Definition ascending_columns {V} (S : csr V) (i : nat) : Prop := StronglySorted lt (nth i (c_idx S) []).

(** np.searchsorted on an ascending list: the number of smaller elements *)
Definition search_ok (search : list nat -> nat -> nat) : Prop :=
  forall l j, StronglySorted lt l -> search l j = length (filter (fun c => c <? j) l).

(** two outcomes: the same matrix, or the same exception *)
Definition same_outcome {V} (r r' : result (smat V)) : Prop :=
  match r, r' with
  | Ok M, Ok M' => srow M = srow M' /\ scol M = scol M' /\
      forall i j, i < srow M -> j < scol M -> stored M i j = stored M' i j
  | Raise e, Raise e' => e = e'
  | _, _ => False
  end.
