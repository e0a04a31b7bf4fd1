(** Model of the random numbers in /repo/hub_toolbox/knn_classification.py:
    score 25-255 (dense) and r_precision 455-644.  [M_KNN] and [M_SparseKNN] leave
    open which permutations are drawn; here they come from numpy's global
    generator: in score from the one of the caller, in r_precision from the
    copies that the forked workers have of it.  np.random.permutation of a list
    permutes positions and depends on the length only. *)
From Coq Require Import String.
From Coq Require Import ZArith List Arith Lia Bool.
From Verif Require Import Py Num Arr Sort Conc S_Neighbors M_IO M_GK M_SNN M_KNN M_MPEmpiric M_SparseKNN M_Start.
Import ListNotations.
Local Open Scope py_scope.

Section KnnRng.
  Context {V : Type} {N : Num V}.
  Context {G : Type}.
  (** [perm m g]: permutation(m) of a generator in state [g], and its next state *)
  Variable perm : nat -> G -> list nat * G.

  (** np.random.permutation(l) (knn_classification.py:204, 221, 482, 505) *)
  Definition permuted (l : list nat) (g : G) : list nat * G :=
    let (p, g') := perm (length l) g in (take 0 l p, g').

  (** ** score *)
  Variable argsort : list V -> list nat.

  (** knn_classification.py:211-228: the voters for each k; a permutation is drawn if none of
      the first k values is finite *)
  Fixpoint voters_rng (row : list V) (ks : list Z) (idx : list nat) (g : G) : list (list nat) * G :=
    match ks with
    | [] => ([], g)
    | k :: ks' =>
        let fin := filter (fun x => nisfin (nth x row nnan)) (prefix idx k) in
        match fin with
        | [] => let (idx', g1) := permuted idx g in
                let (r, g2) := voters_rng row ks' idx' g1 in (prefix idx' k :: r, g2)
        | _ :: _ => let (r, g2) := voters_rng row ks' idx g in (fin :: r, g2)
        end
    end.
  (** knn_classification.py:171-246 for one point: predictions for all k *)
  Definition point_rng (metric : string) (sampled : bool) (D : arr2 V) (ks : list Z)
      (n_cl : nat) (vclasses : list nat) (cand : list nat) (i : nat) (g : G) : list nat * G :=
    let row := knn_row metric sampled D i in
    let (rp, g1) := permuted cand g in
    let (vs, g2) := voters_rng row ks (knn_idx argsort metric row rp) g1 in
    (map (fun nn => knn_vote n_cl (take 0 vclasses nn)) vs, g2).
  (** knn_classification.py:167-246: the loop over the points *)
  Fixpoint points_rng (metric : string) (sampled : bool) (D : arr2 V) (ks : list Z) (n n_cl : nat)
      (classes vclasses cand : list nat) (points : list nat) (st : list (@kst V)) (g : G) : list (@kst V) * G :=
    match points with
    | [] => (st, g)
    | i :: l =>
        let (ps, g1) := point_rng metric sampled D ks n_cl vclasses cand i g in
        points_rng metric sampled D ks n n_cl classes vclasses cand l (zip_upd n i (nth i classes 0) ps st) g1
    end.
  (** knn_classification.py:25-255 score, dense [D], the global generator in state [g];
      also returns its state after the call *)
  Definition score_rng (D : arr2 V) (target : list Z) (ks : list Z) (metric : string)
      (test sample : option (list nat)) (g : G) : result (list (@kst V) * G) :=
    match sample with
    | None => check_distance_matrix_shape (Dense [nrow D; ncol D])
    | Some s => check_sample_shape_fits (Dense [nrow D; ncol D]) (Dense [length s])
    end ;;
    check_distance_matrix_shape_fits_labels (Dense [nrow D; ncol D]) (Dense [length target]) ;;
    check_valid_metric_parameter metric ;;
    let n := match test with None => nrow D | Some t => length t end in
    let points := match test with None => seq 0 (nrow D) | Some t => t end in
    guard (match test, sample with Some _, Some _ => true | _, _ => false end) NotImplementedError ;;
    let cl := unique_labels target in
    let classes := map (class_index cl) target in
    guard (match sample with Some s => existsb (fun x => nrow D <=? x) s | None => false end) IndexError ;;
    guard (existsb (fun i => nrow D <=? i) points) IndexError ;;
    let D' := match sample with None => D | Some s => set_cells s (knn_self metric) D end in
    let sampled := match sample with None => false | Some _ => true end in
    let vclasses := match sample with None => classes | Some s => take 0 classes s end in
    let cand := match sample, test with
                | Some s, _ => seq 0 (length s)
                | None, None => seq 0 n
                | None, Some t => filter (fun x => negb (existsb (Nat.eqb x) t)) (seq 0 n)
                end in
    guard (existsb (fun x => ncol D <=? x) cand) IndexError ;;
    Ok (points_rng metric sampled D' ks n (length cl) classes vclasses cand points (map (fun _ => kst0) ks) g).

  (** ** r_precision *)
  Variable argpart : list V -> list nat -> list nat.
  Variable vsum : list V -> V.

  (** knn_classification.py:468-528 _r_prec_worker in a worker whose generator is in state [g] *)
  Definition rprec_rng (S : smat V) (y : list nat) (rel : list Z) (yp incorrect : nat) (i : nat) (g : G) :
      result ((V * list nat) * G) :=
    let c := nth i y 0 in
    let R := nth c rel 0%Z in
    let none := repeat incorrect yp in
    if (R =? 0)%Z then Ok ((n0, none), g) else
    let (rp, g1) := permuted (seq 0 (length (sp_cols S i))) g in
    let* l := sp_ranked argpart S i rp [R] in
    let idx := prefix (tl l) R in
    let (idx, g2) := match filter (fun x => nisfin (sval S i x)) idx with [] => permuted idx g1 | _ => (idx, g1) end in
    let yy := take 0 y idx in
    let hits := length (filter (fun c' => c' =? c) yy) in
    if hits =? 0 then Ok ((n0, none), g2)
    else let cur := firstn yp yy in
         Ok ((ndiv (nofnat hits) (nofZ R), cur ++ skipn (length cur) none), g2).
  (** one chunk of [imap]: a worker runs its objects in order (knn_classification.py:612-615) *)
  Fixpoint chunk_rng (S : smat V) (y : list nat) (rel : list Z) (yp incorrect : nat) (l : list nat) (g : G) :
      result (list (V * list nat) * G) :=
    match l with
    | [] => Ok ([], g)
    | i :: l' =>
        let* r := rprec_rng S y rel yp incorrect i g in
        let* rs := chunk_rng S y rel yp incorrect l' (snd r) in
        Ok (fst r :: fst rs, snd rs)
    end.
  (** chunks of 100 objects (knn_classification.py:615) *)
  Definition chunks_of (n : nat) : list (list nat) :=
    map (fun c => seq (100 * c) (Nat.min 100 (n - 100 * c))) (seq 0 ((n + 99) / 100)).
  (** knn_classification.py:608-628: [who c] is the worker that takes chunk [c]; chunks are
      handed out in order; [wg w] is the state of worker [w].  An exception reaches
      the caller with the first chunk that has one. *)
  Fixpoint chunks_rng (S : smat V) (y : list nat) (rel : list Z) (yp incorrect : nat) (who : nat -> nat)
      (c : nat) (cs : list (list nat)) (wg : nat -> G) : result (list (V * list nat)) :=
    match cs with
    | [] => Ok []
    | l :: cs' =>
        let* r := chunk_rng S y rel yp incorrect l (wg (who c)) in
        let* rs := chunks_rng S y rel yp incorrect who (1 + c) cs' (upd wg (who c) (snd r)) in
        Ok (fst r ++ rs)
    end.
  (** knn_classification.py:530-644 r_precision; [g] is the state of the generator of the
      caller, of which every worker has a copy (it stays as it is in the caller) *)
  Definition r_precision_rng (dense : bool) (S : smat V) (target : list Z) (metric : string) (yp : nat)
      (who : nat -> nat) (g : G) : result rp_out :=
    let shape := if dense then Dense [srow S; scol S] else Sparse (srow S) (scol S) in
    check_distance_matrix_shape shape ;;
    check_distance_matrix_shape_fits_labels shape (Dense [length target]) ;;
    check_valid_metric_parameter metric ;;
    guard (negb (is_sim metric) || dense) NotImplementedError ;;
    let cl := unique_labels (target ++ [int_min]) in
    let y := map (class_index cl) target in
    let rel := map (fun c => (Z.of_nat c - 1)%Z) (bincount y 0) in
    let* rs := chunks_rng S y rel yp (class_index cl int_min) who 0 (chunks_of (srow S)) (fun _ => g) in
    let item := map fst rs in
    let w := map (fun c => nth c rel 0%Z) y in
    guard (fold_right Z.add 0%Z w =? 0)%Z ZeroDivisionError ;;
    Ok (RpOut (ndiv (vsum item) (nofnat (srow S)))
              (ndiv (vsum (map (fun i => nmul (nth i item nnan) (nofZ (nth i w 0%Z))) (seq 0 (srow S))))
                    (nofZ (fold_right Z.add 0%Z w)))
              item rel y
              (map (fun r => map (fun c => nth c cl 0%Z) (snd r)) rs)).
End KnnRng.
