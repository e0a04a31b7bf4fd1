(** Vocabulary for C155: the state after a fit and whatever follows it. *)
From Coq Require Import String.
From Coq Require Import ZArith List Arith Bool.
From Verif Require Import Py Num Arr M_Dist M_Approx M_ApproxPredict M_Lifecycle M_Shared.
Import ListNotations.
Local Open Scope py_scope.

Section Spec.
  Context {V : Type} {N : Num V}.
  Variable vsum : list V -> V.
  Variable sdist : string -> nat -> (nat -> V) -> (nat -> V) -> V.
  Variables (vexp : V -> V) (vsf : V -> V -> V -> V).
  Variable vstore : f64 -> V.
  Variable part : list V -> list nat -> list V.
  Variable argpart : list V -> list nat -> list nat.
  Variable P : par.
  Notation sstep := (sstep vsum sdist vexp vsf vstore part argpart P).
  Notation srun := (srun vsum sdist vexp vsf vstore part argpart P).

  (** not a call of fit: transform, predict, or an assignment of the caller *)
  Definition no_fit_call (c : @scall V) : Prop := match c with ZFit _ _ _ => False | _ => True end.

  (** With the memory [m0], fit was called on the arrays [x] and [y] and succeeded
      (n_samples was [ns], the sample drawn [ind]); then anything but a fit
      happened, which led to the memory [m] and the object [o]. *)
  Definition since_fit (m0 : mem) (ns : nat) (ind : list nat) (x : nat) (y : option nat) (m : mem) (o : sobj) : Prop :=
    exists o0 o1 h, o_ns o0 = ns /\ sstep (m0, o0) (ZFit ind x y) (m0, o1) (AnsFit (Done tt)) /\
      srun (m0, o1) h (m, o) /\ Forall no_fit_call h.

  (** the object uses the caller's array of data / of labels itself: nothing was
      sampled, and the dtype was float32 / int32 *)
  Definition shares_data (m0 : @mem V) (x : nat) : bool := match p_kind P with KNone => arr32 m0 x | _ => false end.
  (** see above *)
  Definition shares_labels (m0 : @mem V) (l : nat) : bool := match p_kind P with KNone => lab32 m0 l | _ => false end.
  (** the training data the object sees: the present contents of the array if it
      is shared, the contents at the time of fit otherwise *)
  Definition data_seen (m0 m : @mem V) (x : nat) : arr2 V := if shares_data m0 x then arr m x else arr m0 x.
  (** likewise the labels *)
  Definition labels_seen (m0 m : @mem V) (l : nat) : list Z := if shares_labels m0 l then lab m l else lab m0 l.
  (** a function's result as outcome of a method call *)
  Definition of_result {A} (r : result A) : outcome A := match r with Ok a => Done a | Raise e => Failed e end.

  (** X[:]: all rows of [X] *)
  Definition all_rows (X : arr2 V) : arr2 V := rows_at X (seq 0 (nrow X)).
  (** Local scaling and NICDM with distances to the data [X], but the neighbourhood
      radii of the data [X0] (compare ls_fixed, with one array in both places). *)
  Definition ls_mixed (nicdm : bool) (metric : string) (k : nat) (X0 X Z : arr2 V) : result (arr2 V) :=
    let* rt := ls_fit sdist part metric k X0 in
    trans_check Z X ;;
    let D := cross_dists sdist metric Z X in
    let* rx := ls_rtest part k D in
    Ok (Arr2 (nrow Z) (nrow X) (fun i j => ls_cell vsum vexp nicdm k (at2 D i j) (nth i rx []) (nth j rt []))).
  (** Gaussian mutual proximity with distances to [X], but the means and deviations of [X0]. *)
  Definition mpg_mixed (metric : string) (X0 X Z : arr2 V) : result (arr2 V) :=
    let (mu, sd) := mpg_moments vsum sdist metric SNone X0 in
    trans_check Z X ;;
    let D := cross_dists sdist metric Z X in
    Ok (Arr2 (nrow Z) (nrow X) (fun i j => nth j (mpg_row vsum vsf mu sd (rowl D i)) nnan)).
  (** DisSim Local with distances and query centroids of [X], but the objects of [X0]
      with their centroids for the other term. *)
  Definition dsl_mixed (metric : string) (k : nat) (X0 X Z : arr2 V) : result (arr2 V) :=
    let* nt := dsl_train_nn sdist argpart metric k X0 in
    trans_check Z X ;;
    let D := cross_dists sdist metric Z X in
    let* nx := dsl_test_nn argpart k D in
    let ct j := dist_to_cent vsum metric (ncol X0) (at2 X0 j) (centroid vsum X0 (nth j nt [])) in
    let cx i := dist_to_cent vsum metric (ncol Z) (at2 Z i) (centroid vsum X (nth i nx [])) in
    Ok (Arr2 (nrow Z) (nrow X) (fun i j => nsub (nsub (at2 D i j) (cx i)) (ct j))).

  (** the outcomes of transform and predict on the array [q] *)
  Definition transforms (m : mem) (o : sobj) (q : nat) (r : outcome (arr2 V)) : Prop :=
    exists st, sstep (m, o) (ZTransform q) st (AnsTrans r).
  (** see above *)
  Definition predicts (m : mem) (o : sobj) (q : nat) (r : outcome (list Z)) : Prop :=
    exists st, sstep (m, o) (ZPredict q) st (AnsPred r).
End Spec.
