(** Model of /repo/hub_toolbox/knn_classification.py: predict (257-449) with its
    confusion matrices and for sparse input.  The predictions alone, for dense
    input, are [predict] of M_KNN.v. *)
From Coq Require Import String.
From Coq Require Import ZArith List Arith Lia Bool.
From Verif Require Import Py Num Arr Sort Conc S_Neighbors M_IO M_GK M_SNN M_KNN M_LS M_MPEmpiric M_SNNSample M_LSSparse.
Import ListNotations.
Local Open Scope py_scope.

(** [cmat], indexed by k, output, true class, predicted class (knn_classification.py:367) *)
Definition cmat4 := nat -> nat -> nat -> nat -> nat.
(** knn_classification.py:367: zeros *)
Definition cmat0 : cmat4 := fun _ _ _ _ => 0.
(** [cmat[j, l, a, b] += 1] (knn_classification.py:437, 441) *)
Definition cmat_inc (cm : cmat4) (j l a b : nat) : cmat4 :=
  fun j' l' a' b' =>
    if (j' =? j) && (l' =? l) && (a' =? a) && (b' =? b) then S (cm j' l' a' b') else cm j' l' a' b'.

(** [for x in l: s = f(s, x)], where the body may raise (knn_classification.py:384) *)
Fixpoint foldM {A S} (f : S -> A -> result S) (l : list A) (s : S) : result S :=
  match l with
  | [] => Ok s
  | x :: l' => let* s' := f s x in foldM f l' s'
  end.

Section Predict.
  Context {V : Type} {N : Num V}.
  (** np.argsort, np.random.permutation at lines 408 and 420 *)
  Variable argsort : list V -> list nat.
  Variable rp : nat -> list nat -> list nat.
  Variable sh : nat -> nat -> list nat -> list nat.

  (** knn_classification.py:424-441 for point [i] and the [j]-th k: the loop
      over the outputs [l] adds one prediction and one count each *)
  Definition predict_outputs (classes vclasses : list (list nat)) (c i j : nat) (nn : list nat)
      (cm : cmat4) : result (list nat * cmat4) :=
    foldM (fun '(ys, cm) l =>
        let* p := predict_vote (map (fun x => nth l (nth x vclasses []) 0) nn) in
        Ok (ys ++ [p], cmat_inc cm j l (nth l (nth i classes []) 0) p))
      (seq 0 c) ([], cm).

  (** knn_classification.py:415-441 for point [i]: the loop over the values of k *)
  Definition predict_ks (classes vclasses : list (list nat)) (c i : nat) (voters : list (list nat))
      (cm : cmat4) : result (list (list nat) * cmat4) :=
    foldM (fun '(yss, cm) j =>
        let* (ys, cm') := predict_outputs classes vclasses c i j (nth j voters []) cm in
        Ok (yss ++ [ys], cm'))
      (seq 0 (length voters)) ([], cm).

  (** knn_classification.py:388-394: row [i] as a dense vector.  A sparse row is
      expanded by [toarray()], so a cell that is not stored becomes 0. *)
  Definition dense_of (A : matarg V) : arr2 V :=
    match A with MDense D => D | MSparse Sm => sdense Sm end.

  (** knn_classification.py:257-449 predict with return_cmat=True, [target] n x c
      (rows of equal length).  With [sample_idx] a sparse [D] is refused at line
      322, so [rp = ind] (405) is never reached. *)
  Definition predict_full (A : matarg V) (target : list (list Z)) (ks : list Z) (metric : string)
      (test sample : option (list nat)) : result (list (list (list nat)) * cmat4) :=
    match sample with
    | None => check_distance_matrix_shape (shape_arg A)
    | Some s => check_sample_shape_fits (shape_arg A) (Dense [length s])
    end ;;
    check_valid_metric_parameter metric ;;
    guard (match test with Some _ => true | None => false end) UnboundLocalError ;;
    let D := dense_of A in
    let n := nrow D in
    guard (length target <? n) IndexError ;;
    let cl := unique_labels (concat target) in
    let classes := map (map (class_index cl)) target in
    guard (match sample with Some s => existsb (fun x => n <=? x) s | None => false end) IndexError ;;
    let D' := match sample with None => D | Some s => set_cells s (knn_self metric) D end in
    let sampled := match sample with None => false | Some _ => true end in
    let vclasses := match sample with None => classes | Some s => take [] classes s end in
    let cand := match sample with Some s => seq 0 (length s) | None => seq 0 n end in
    foldM (fun '(y, cm) i =>
        let row := knn_row metric sampled D' i in
        let* (yi, cm') := predict_ks classes vclasses (length (nth 0 target [])) i
            (knn_voters row (sh i) 0 ks (knn_idx argsort metric row (rp i cand))) cm in
        Ok (y ++ [yi], cm'))
      (seq 0 n) ([], cmat0).
End Predict.
