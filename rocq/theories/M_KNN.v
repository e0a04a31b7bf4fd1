(** Model of /repo/hub_toolbox/knn_classification.py: score 25-255 (dense),
    predict 257-449 (dense), f1 measures 646-724. *)
From Coq Require Import String.
From Coq Require Import ZArith List Arith Lia Bool.
From Verif Require Import Py Num Arr Sort S_Neighbors M_IO M_GK M_SNN.
Import ListNotations.
Local Open Scope py_scope.

(** knn_classification.py:143,152-155 (and 366-373): labels become their rank in np.unique *)
Fixpoint class_index (cl : list Z) (t : Z) : nat :=
  match cl with
  | [] => 0
  | c :: cl' => if (c =? t)%Z then 0 else S (class_index cl' t)
  end.

(** [np.max(cs)], knn_classification.py:231 *)
Definition max_list (l : list nat) : nat := fold_right Nat.max 0 l.

(** knn_classification.py:229-246: bincount, most frequent classes, nearest
    neighbour on a tie, last class when nobody votes *)
Definition knn_vote (n_cl : nat) (nn : list nat) : nat :=
  let cs := bincount nn 0 in
  let max_cs := if 0 <? length cs
                then filter (fun c => nth c cs 0 =? max_list cs) (seq 0 (length cs))
                else [n_cl - 1] in
  if 1 <? length max_cs then nth 0 nn 0 else nth 0 max_cs 0.

Section KNN.
  Context {V : Type} {N : Num V}.
  Variable argsort : list V -> list nat.

  (** knn_classification.py:100-105 *)
  Definition knn_self (metric : string) : V := if is_sim metric then nninf else ninf.

  (** knn_classification.py:204-208 (and 408-412): candidates [rp] (already permuted) sorted
      by their value in [row], NaN removed *)
  Definition knn_idx (metric : string) (row : list V) (rp : list nat) : list nat :=
    let d2 := take nnan row rp in
    let d2idx := if is_sim metric then rev (argsort d2) else argsort d2 in
    let d2idx := filter (fun a => negb (nisnan (nth a d2 nnan))) d2idx in
    take 0 rp d2idx.

  (** knn_classification.py:211-228 (and 415-430): for each k the points that vote; [sh j] is
      the permutation drawn when none of the first k values is finite (it
      replaces [idx] for the following k as well) *)
  Fixpoint knn_voters (row : list V) (sh : nat -> list nat -> list nat) (j : nat)
      (ks : list Z) (idx : list nat) : list (list nat) :=
    match ks with
    | [] => []
    | k :: ks' =>
        let fin := filter (fun x => nisfin (nth x row nnan)) (prefix idx k) in
        match fin with
        | [] => let idx' := sh j idx in prefix idx' k :: knn_voters row sh (S j) ks' idx'
        | _ :: _ => fin :: knn_voters row sh (S j) ks' idx
        end
    end.

  (** knn_classification.py:176-178: the row with the self value set
      (with a sample the self cells were written before, line 161-162) *)
  Definition knn_row (metric : string) (sampled : bool) (D : arr2 V) (i : nat) : list V :=
    if sampled then rowl D i
    else map (fun x => if x =? i then knn_self metric else at2 D i x) (seq 0 (ncol D)).

  (** accumulators for one value of k.  [cmat] and [corr] are float arrays that
      only ever hold counts and 0/1; they are natural numbers and booleans here.
      (knn_classification.py:140-141, 150) *)
  Record kst := Kst { k_acc : V; k_corr : nat -> bool; k_cmat : nat -> nat -> nat }.
  (** knn_classification.py:140-141, 150: the initial zeros *)
  Definition kst0 : kst := Kst n0 (fun _ => false) (fun _ _ => 0).

  (** knn_classification.py:235-246 *)
  Definition kst_upd (n : nat) (i seed : nat) (p : nat) (s : kst) : kst :=
    Kst (if seed =? p then nadd (k_acc s) (ndiv n1 (nofnat n)) else k_acc s)
        (if seed =? p then (fun x => if x =? i then true else k_corr s x) else k_corr s)
        (fun a b => if (a =? seed) && (b =? p) then S (k_cmat s a b) else k_cmat s a b).

  (** Random choices: [rp i cand] permutes the candidates of point [i]
      (line 204), [sh i j] is the extra permutation at line 221. *)
  Variable rp : nat -> list nat -> list nat.
  Variable sh : nat -> nat -> list nat -> list nat.

  (** knn_classification.py:171-246 for one point: predictions for all k *)
  Definition knn_point (metric : string) (sampled : bool) (D : arr2 V) (ks : list Z)
      (n_cl : nat) (vclasses : list nat) (cand : list nat) (i : nat) : list nat :=
    let row := knn_row metric sampled D i in
    map (fun nn => knn_vote n_cl (take 0 vclasses nn))
        (knn_voters row (sh i) 0 ks (knn_idx metric row (rp i cand))).

  (** knn_classification.py:211-246: the update for every k *)
  Fixpoint zip_upd (n i seed : nat) (ps : list nat) (st : list kst) : list kst :=
    match ps, st with
    | p :: ps', s :: st' => kst_upd n i seed p s :: zip_upd n i seed ps' st'
    | _, _ => []
    end.

  (** knn_classification.py:25-255 score, dense [D].  [ks] is the list of k
      values (an int k is the list [k]); [test] are non-negative indices. *)
  Definition score (D : arr2 V) (target : list Z) (ks : list Z) (metric : string)
      (test sample : option (list nat)) : result (list kst) :=
    match sample with
    | None => check_distance_matrix_shape (Dense [nrow D; ncol D])
    | Some s => check_sample_shape_fits (Dense [nrow D; ncol D]) (Dense [length s])
    end ;;
    check_distance_matrix_shape_fits_labels (Dense [nrow D; ncol D]) (Dense [length target]) ;;
    check_valid_metric_parameter metric ;;
    let n := match test with None => nrow D | Some t => length t end in
    let points := match test with None => seq 0 (nrow D) | Some t => t end in
    guard (match test, sample with Some _, Some _ => true | _, _ => false end) NotImplementedError ;;
    let cl := unique_labels target in
    let classes := map (class_index cl) target in
    guard (match sample with Some s => existsb (fun x => nrow D <=? x) s | None => false end) IndexError ;;
    guard (existsb (fun i => nrow D <=? i) points) IndexError ;;
    let D' := match sample with None => D | Some s => set_cells s (knn_self metric) D end in
    let sampled := match sample with None => false | Some _ => true end in
    let vclasses := match sample with None => classes | Some s => take 0 classes s end in
    let cand := match sample, test with
                | Some s, _ => seq 0 (length s)
                | None, None => seq 0 n
                | None, Some t => filter (fun x => negb (existsb (Nat.eqb x) t)) (seq 0 n)
                end in
    guard (existsb (fun x => ncol D <=? x) cand) IndexError ;;
    Ok (fold_left (fun st i =>
          zip_upd n i (nth i classes 0)
            (knn_point metric sampled D' ks (length cl) vclasses cand i) st)
        points (map (fun _ => kst0) ks)).

  (** knn_classification.py:431-441: like [knn_vote] but np.max of an empty
      array raises ValueError *)
  Definition predict_vote (nn : list nat) : result nat :=
    match nn with [] => Raise ValueError | _ => Ok (knn_vote 0 nn) end.

  (** knn_classification.py:257-449 predict, dense [D], [target] n x c (rows of
      equal length, n rows); returns [y_pred], indexed [i][j][l], of the points
      0..n-1; the confusion matrices are not modelled.  A missing row of
      [target] raises IndexError. *)
  Definition predict (D : arr2 V) (target : list (list Z)) (ks : list Z) (metric : string)
      (test sample : option (list nat)) : result (list (list (list nat))) :=
    match sample with
    | None => check_distance_matrix_shape (Dense [nrow D; ncol D])
    | Some s => check_sample_shape_fits (Dense [nrow D; ncol D]) (Dense [length s])
    end ;;
    check_valid_metric_parameter metric ;;
    guard (match test with Some _ => true | None => false end) UnboundLocalError ;;
    let n := nrow D in
    guard (length target <? n) IndexError ;;
    let cl := unique_labels (concat target) in
    let classes := map (map (class_index cl)) target in
    guard (match sample with Some s => existsb (fun x => n <=? x) s | None => false end) IndexError ;;
    let D' := match sample with None => D | Some s => set_cells s (knn_self metric) D end in
    let sampled := match sample with None => false | Some _ => true end in
    let vclasses := match sample with None => classes | Some s => take [] classes s end in
    let cand := match sample with Some s => seq 0 (length s) | None => seq 0 n end in
    mapM (fun i =>
      let row := knn_row metric sampled D' i in
      mapM (fun nn =>
        mapM (fun l => predict_vote (map (fun x => nth l (nth x vclasses []) 0) nn))
             (seq 0 (length (nth 0 target []))))
        (knn_voters row (sh i) 0 ks (knn_idx metric row (rp i cand))))
      (seq 0 n).
End KNN.
Arguments Kst {V}. Arguments k_acc {V}. Arguments k_corr {V}. Arguments k_cmat {V}.

Section F1.
  Context {V : Type} {N : Num V}.
  (** a 2x2 table of counts: TN FP / FN TP (knn_classification.py:646-673) *)
  Record tab := Tab { tn : nat; fp : nat; fn : nat; tp : nat }.
  (** knn_classification.py:646-673 f1_score *)
  Definition f1_score (t : tab) : V :=
    if tp t =? 0 then n0
    else let precision := ndiv (nofnat (tp t)) (nofnat (tp t + fp t)) in
         let recall := ndiv (nofnat (tp t)) (nofnat (tp t + fn t)) in
         ndiv (nmul (nmul (nofZ 2) precision) recall) (nadd precision recall).

  (** numpy's [sum] of a 1-D array: the additions may be associated in any way
      (pairwise summation) (used at knn_classification.py:690, 707) *)
  Inductive np_sum : list V -> V -> Prop :=
  | ns_nil : np_sum [] n0
  | ns_one v : np_sum [v] v
  | ns_app l1 l2 v1 v2 : l1 <> [] -> l2 <> [] -> np_sum l1 v1 -> np_sum l2 v2 ->
      np_sum (l1 ++ l2) (nadd v1 v2).

  (** 675-690 f1_macro: mean of the per-class values *)
  Definition f1_macro (ts : list tab) (r : V) : Prop :=
    exists s, np_sum (map f1_score ts) s /\ r = ndiv s (nofnat (length ts)).

  (** 692-707 f1_weighted: np.average with weights FN + TP; the weights are
      summed as integers; zero total raises ZeroDivisionError *)
  Definition tab_weight (t : tab) : nat := fn t + tp t.
  (** knn_classification.py:692-707 *)
  Definition f1_weighted (ts : list tab) (r : result V) : Prop :=
    let w := sum_nat (map tab_weight ts) in
    if w =? 0 then r = Raise ZeroDivisionError
    else exists s, np_sum (map (fun t => nmul (f1_score t) (nofnat (tab_weight t))) ts) s /\
                   r = Ok (ndiv s (nofnat w)).

  (** 709-724 f1_micro: [f1_score(cmat.sum(axis=0))] *)
  Definition tab_add (a b : tab) : tab :=
    Tab (tn a + tn b) (fp a + fp b) (fn a + fn b) (tp a + tp b).
  (** knn_classification.py:709-724 *)
  Definition f1_micro (ts : list tab) : V := f1_score (fold_right tab_add (Tab 0 0 0 0) ts).
End F1.
