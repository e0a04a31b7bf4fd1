(** Model of Mutual Proximity to a sample (/repo/hub_toolbox/global_scaling.py:89-192 and
    415-522) with the indices a caller can pass: arbitrary integers.  Every access to an
    array resolves its index the way numpy does.  The versions for indices that are known
    to be natural numbers are [mp_empiric_sample] and [gaussi_sample]. *)
From Coq Require Import String.
From Coq Require Import ZArith List Arith Lia Bool.
From Verif Require Import Py Num Arr S_Neighbors M_IO M_MPEmpiric M_Approx M_MPDist M_Predict.
Import ListNotations.
Local Open Scope py_scope.

(** the row that index [z] means in an axis of length [n] (global_scaling.py:166, 174, 175,
    187, 192, 467, 486, 496, 506-513, 517, 522): negative ones count from the end *)
Definition row_at (n : nat) (z : Z) : result nat :=
  if ((0 <=? z) && (z <? Z.of_nat n))%Z then Ok (Z.to_nat z)
  else if ((- Z.of_nat n <=? z) && (z <? 0))%Z then Ok (Z.to_nat (Z.of_nat n + z))
  else Raise IndexError.

Section SampleZ.
  Context {V : Type} {N : Num V}.

  (** global_scaling.py:165-166, 186-187, 485-486, 495-496, 516-517:
      [for j, sample in enumerate(idx): D[sample, j] = v] *)
  Definition set_self_z (idx : list Z) (v : V) (D : arr2 V) : result (arr2 V) :=
    foldM (fun M j => let* i := row_at (nrow D) (nth j idx 0%Z) in Ok (set2 M i j v))
      (seq 0 (length idx)) D.

  (** [range(n)] or [test_set_ind] (global_scaling.py:148-151, 473-476) *)
  Definition rows_z (n : nat) (test : option (list Z)) : list Z :=
    match test with None => map Z.of_nat (seq 0 n) | Some t => t end.

  (** [D_mp] or [D_mp[test_set_ind]] (global_scaling.py:189-192, 519-522) *)
  Definition select_z (M : arr2 V) (test : option (list Z)) : result (arr2 V) :=
    match test with
    | None => Ok M
    | Some t => let* t' := mapM (row_at (nrow M)) t in
                Ok (Arr2 (length t') (ncol M) (fun a b => at2 M (nth a t' 0) b))
    end.

  (** global_scaling.py:134-192 for a dense array *)
  Definition mp_empiric_sample_z (D : arr2 V) (idx : list Z) (metric : string)
      (test : option (list Z)) : result (arr2 V) :=
    check_sample_shape_fits (Dense [nrow D; ncol D]) (Dense [length idx]) ;;
    check_valid_metric_parameter metric ;;
    let* D1 := set_self_z idx (mp_exclude metric) D in
    let* M := foldM (fun M z =>
        let* i := row_at (nrow D) z in
        let* J := mapM (row_at (nrow D)) idx in
        Ok (setrow M i 0 (ncol D1) (fun j =>
              mp_value metric (ncol D1) (at2 D1 i) (at2 D1 (nth j J 0)) (at2 D1 i j) (ncol D1))))
      (rows_z (nrow D) test) (full2 (nrow D) (ncol D) nnan) in
    let* M := set_self_z idx (mp_self metric) M in
    select_z M test.

  (** global_scaling.py:134-192 for a sparse array: line 136 *)
  Definition mp_empiric_sample_sparse (S : smat V) (idx : list Z) (metric : string)
      (test : option (list Z)) : result (arr2 V) :=
    check_sample_shape_fits (Sparse (srow S) (scol S)) (Dense [length idx]) ;;
    check_valid_metric_parameter metric ;;
    guard (is_dist metric) ValueError ;;
    Raise NotImplementedError.

  Variable vsum : list V -> V.
  (** [norm.cdf(x, mu, sd)], [norm.sf(x, mu, sd)] *)
  Variables vcdf vsf : V -> V -> V -> V.

  (** global_scaling.py:459-522 for a dense array *)
  Definition gaussi_sample_z (D : arr2 V) (idx : list Z) (metric : string)
      (test : option (list Z)) : result (arr2 V) :=
    check_sample_shape_fits (Dense [nrow D; ncol D]) (Dense [length idx]) ;;
    check_valid_metric_parameter metric ;;
    let* _ := mapM (row_at (nrow D)) idx in
    let* D1 := set_self_z idx nnan D in
    let mu i := vmean_ vsum (nonnan (rowl D1 i)) in
    let sd i := no_zero (vstd vsum (nonnan (rowl D1 i))) in
    let* D2 := set_self_z idx (mp_self metric) D1 in
    let* M := foldM (fun M z =>
        let* i := row_at (nrow D) z in
        let* J := mapM (row_at (nrow D)) idx in
        Ok (setrow M i 0 (ncol D) (fun j =>
              gi_value vcdf vsf metric (at2 D2 i j) (mu i) (sd i) (mu (nth j J 0)) (sd (nth j J 0)))))
      (rows_z (nrow D) test) (full2 (nrow D) (ncol D) n0) in
    let* M := set_self_z idx (mp_self metric) M in
    select_z M test.

  (** global_scaling.py:589-673, mutual_proximity_gaussi for a dense array with [idx] given;
      [sample_size] and [test_set_ind] are not looked at (605 computes a value that is not
      used) *)
  Definition gaussi_idx_z (D : arr2 V) (metric : string) (sample_size : Z)
      (test : option (list Z)) (idx : list Z) : result (arr2 V) :=
    check_sample_shape_fits (Dense [nrow D; ncol D]) (Dense [length idx]) ;;
    check_valid_metric_parameter metric ;;
    let* D1 := set_self_z idx nnan D in
    let mu i := vmean_ vsum (nonnan (rowl D1 i)) in
    let sd i := no_zero (vstd vsum (nonnan (rowl D1 i))) in
    let* D2 := set_self_z idx (mp_self metric) D1 in
    let* M := foldM (fun M i =>
        let* J := mapM (row_at (nrow D)) idx in
        Ok (setrow M i 0 (ncol D) (fun j =>
              gi_value vcdf vsf metric (at2 D2 i j) (mu i) (sd i) (mu (nth j J 0)) (sd (nth j J 0)))))
      (seq 0 (nrow D)) (full2 (nrow D) (ncol D) n0) in
    set_self_z idx (mp_self metric) M.
End SampleZ.
