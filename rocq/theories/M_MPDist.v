(** Model of Mutual Proximity with parametric distributions:
    /repo/hub_toolbox/global_scaling.py:415-1029.  The distribution functions
    (scipy.stats.norm.cdf / sf and scipy.special.gammainc) and the summation of
    numpy are parameters. *)
From Coq Require Import String.
From Coq Require Import ZArith List Arith Lia Bool.
From Verif Require Import Py Num Arr S_Neighbors M_IO M_MPEmpiric M_Approx.
Import ListNotations.
Local Open Scope py_scope.

Section MPDist.
  Context {V : Type} {N : Num V}.
  Variable vsum : list V -> V.
  (** [norm.cdf(x, mu, sd)], [norm.sf(x, mu, sd)] *)
  Variables vcdf vsf : V -> V -> V -> V.
  (** [gammainc(a, x)] *)
  Variable vgam : V -> V -> V.

  (** global_scaling.py:602-605, 804-807, 686-689, 861-864, 966-969:
      [slice(0, n)] or [np.setdiff1d(np.arange(n), test_set_ind)] *)
  Definition train_rows (n : nat) (test : option (list Z)) : list nat :=
    match test with
    | None => seq 0 n
    | Some t => filter (fun l => negb (existsb (Z.eqb (Z.of_nat l)) t)) (seq 0 n)
    end.

  (** global_scaling.py:492, 636 [sd[sd == 0] = 1e-7], 823 [va[va == 0] = 1e-7] *)
  Definition tiny : V := ndiv n1 (nofZ 10000000).
  (** global_scaling.py:492, 636, 823 *)
  Definition no_zero (v : V) : V := if neq v n0 then tiny else v.

  (** [D[train, j]] without NaN (global_scaling.py:626-627, 820-821) *)
  Definition col_obs (D : arr2 V) (train : list nat) (j : nat) : list V :=
    nonnan (map (fun l => at2 D l j) train).

  (** global_scaling.py:505-513, 656-664: the value for one pair *)
  Definition gi_value (metric : string) (d mi si mj sj : V) : V :=
    if is_sim metric then nmul (vcdf d mi si) (vcdf d mj sj)
    else nsub n1 (nmul (vsf d mi si) (vsf d mj sj)).

  (** global_scaling.py:645-668 without idx, 827-847: fill the upper triangle,
      mirror it, set the diagonal *)
  Definition mirror (metric : string) (n : nat) (v : nat -> nat -> V) : arr2 V :=
    let M := for_ n (fun i M => setrow M i (i + 1) n (v i)) (full2 n n n0) in
    fill_diagonal (zip2 nadd M (transpose M)) (mp_self metric).

  (** global_scaling.py:616-668 for a dense square matrix of floats without idx;
      [train]: the rows the parameters are estimated from *)
  Definition gaussi_core (metric : string) (train : list nat) (D0 : arr2 V) : arr2 V :=
    let n := nrow D0 in
    let D := fill_diagonal D0 nnan in
    let mu j := vmean_ vsum (col_obs D train j) in
    let sd j := no_zero (vstd vsum (col_obs D train j)) in
    let D := fill_diagonal D (mp_self metric) in
    mirror metric n (fun i j => gi_value metric (at2 D i j) (mu i) (sd i) (mu j) (sd j)).

  (** global_scaling.py:484-517 and 619-672 with idx: moments per row, then the
      rows in [rows] *)
  Definition gaussi_rows (metric : string) (idx rows : list nat) (D0 : arr2 V) : arr2 V :=
    let D := set_self_cells idx nnan D0 in
    let mu i := vmean_ vsum (nonnan (rowl D i)) in
    let sd i := no_zero (vstd vsum (nonnan (rowl D i))) in
    let D := set_self_cells idx (mp_self metric) D in
    let M := fold_left (fun M i => setrow M i 0 (ncol D0) (fun j =>
                 gi_value metric (at2 D i j) (mu i) (sd i) (mu (nth j idx 0)) (sd (nth j idx 0))))
               rows (full2 (nrow D0) (ncol D0) n0) in
    set_self_cells idx (mp_self metric) M.

  (** global_scaling.py:524-673 mutual_proximity_gaussi for a dense array of
      floats (sparse input: [gaussi_sparse]).  Line 629: a sample size other
      than 0 always fails: [np.random.shuffle] of a slice raises TypeError, and of
      an array returns None, which cannot be sliced.  Indices in [idx] are
      non-negative. *)
  Definition gaussi (D : arr2 V) (metric : string) (sample_size : Z)
      (test : option (list Z)) (idx : option (list nat)) : result (arr2 V) :=
    match idx with
    | None =>
        check_distance_matrix_shape (Dense [nrow D; ncol D]) ;;
        check_valid_metric_parameter metric ;;
        guard (negb (sample_size =? 0)%Z) TypeError ;;
        Ok (gaussi_core metric (train_rows (nrow D) test) D)
    | Some idx =>
        check_sample_shape_fits (Dense [nrow D; ncol D]) (Dense [length idx]) ;;
        check_valid_metric_parameter metric ;;
        guard (existsb (fun s => nrow D <=? s) idx) IndexError ;;
        Ok (gaussi_rows metric idx (seq 0 (nrow D)) D)
    end.

  (** global_scaling.py:415-522 mutual_proximity_gaussi_sample; indices are
      non-negative *)
  Definition gaussi_sample (D : arr2 V) (idx : list nat) (metric : string)
      (test : option (list nat)) : result (arr2 V) :=
    check_sample_shape_fits (Dense [nrow D; ncol D]) (Dense [length idx]) ;;
    check_valid_metric_parameter metric ;;
    guard (existsb (fun s => nrow D <=? s) idx) IndexError ;;
    match test with
    | None => Ok (gaussi_rows metric idx (seq 0 (nrow D)) D)
    | Some t =>
        guard (existsb (fun s => nrow D <=? s) t) IndexError ;;
        let M := gaussi_rows metric idx t D in
        Ok (Arr2 (length t) (ncol D) (fun a b => at2 M (nth a t 0) b))
    end.

  (** [np.nanvar(.., ddof=1)]: NaN for fewer than two values (global_scaling.py:821) *)
  Definition vvar1 (l : list V) : V :=
    if length l <=? 1 then nnan
    else ndiv (vsum (map (fun x => nmul (nsub x (vmean_ vsum l)) (nsub x (vmean_ vsum l))) l))
              (nofnat (length l - 1)).

  (** global_scaling.py:927-950 _local_gamcdf for one value ([mv] is never given,
      so the test [mv == 0] fails).  Lines 930, 935 and 939 also write into the
      arrays of the caller; each cell is used once there, or replaced by the same
      value again. *)
  Definition gamcdf (x a b : V) : V :=
    let a := if nlt a n0 then nnan else a in
    let b := if nle b n0 then nnan else b in
    let x := if nlt x n0 then n0 else x in
    vgam a (ndiv x b).

  (** global_scaling.py:835-842: the value for a pair; [dij = D[i,j]], [dji = D[j,i]] *)
  Definition ga_value (metric : string) (dij dji ai bi aj bj : V) : V :=
    if is_sim metric then nmul (gamcdf dij ai bi) (gamcdf dji aj bj)
    else nsub n1 (nmul (nsub n1 (gamcdf dij ai bi)) (nsub n1 (gamcdf dji aj bj))).

  (** global_scaling.py:818-847 mutual_proximity_gammai for a dense array of
      floats *)
  Definition gammai_core (metric : string) (train : list nat) (D0 : arr2 V) : arr2 V :=
    let D := fill_diagonal D0 nnan in
    let mu j := vmean_ vsum (col_obs D train j) in
    let va j := no_zero (vvar1 (col_obs D train j)) in
    let A j := ndiv (nmul (mu j) (mu j)) (va j) in
    let B j := ndiv (va j) (mu j) in
    mirror metric (nrow D0) (fun i j => ga_value metric (at2 D i j) (at2 D j i) (A i) (B i) (A j) (B j)).
  (** global_scaling.py:743-849 mutual_proximity_gammai for a dense array of floats *)
  Definition gammai (D : arr2 V) (metric : string) (test : option (list Z)) : result (arr2 V) :=
    check_distance_matrix_shape (Dense [nrow D; ncol D]) ;;
    check_valid_metric_parameter metric ;;
    Ok (gammai_core metric (train_rows (nrow D) test) D).

  (** ** sparse similarity matrices *)

  (** the stored values of column j in the rows [train] (global_scaling.py:700, 875, 974) *)
  Definition sp_col (S : smat V) (train : list nat) (j : nat) : list V :=
    flat_map (fun l => match stored S l j with Some v => [v] | None => [] end) train.
  (** global_scaling.py:700-706, 875-882, 974-981: mean, and mean of squares, of the stored values
      of a column; 1 is subtracted from sum and number for the self similarity.
      ([S_param] is a copy of the rows, so squaring its data leaves S alone.) *)
  Definition sp_mu (S : smat V) (train : list nat) (j : nat) : V :=
    let c := sp_col S train j in
    ndiv (nsub (vsum c) n1) (nofZ (Z.of_nat (length c) - 1)).
  (** global_scaling.py:703-705, 879-882, 978-981 *)
  Definition sp_E1 (S : smat V) (train : list nat) (j : nat) : V :=
    let c := sp_col S train j in
    ndiv (nsub (vsum (map (fun x => nmul x x) c)) n1) (nofZ (Z.of_nat (length c) - 1)).
  (** global_scaling.py:707-710 *)
  Definition sp_sd (S : smat V) (train : list nat) (j : nat) : V :=
    nsqrt (nsub (sp_E1 S train j) (nmul (sp_mu S train j) (sp_mu S train j))).

  (** global_scaling.py:698-699, 873-874, 972-973: the self similarities; max() of an empty
      diagonal is a ValueError as well *)
  Definition unit_diagonal (S : smat V) : bool :=
    negb (srow S =? 0) && forallb (fun i => neq (sval S i i) n1) (seq 0 (srow S)).

  (** lil_matrix: zeros are not stored (global_scaling.py:713, 737, 894, 914, 996, 1018) *)
  Definition lil (v : V) : option V := if nonzero v then Some v else None.
  (** global_scaling.py:722, 904, 1006: [self_value / 2.] *)
  Definition half : V := ndiv n1 (nofZ 2).

  (** global_scaling.py:728-736: [tmp[1:]] *)
  Definition gis_value (S : smat V) (train : list nat) (i j : nat) : V :=
    let p x k := if neq x n0 then n0 else vcdf x (sp_mu S train k) (sp_sd S train k) in
    nmul (p (sval S i j) i) (p (sval S j i) j).

  (** global_scaling.py:675-741 _mutual_proximity_gaussi_sparse; [sample_size] and
      [min_nnz] are not used *)
  Definition gaussi_sparse (S : smat V) (test : option (list Z)) : result (smat V) :=
    guard (negb (unit_diagonal S)) ValueError ;;
    let train := train_rows (srow S) test in
    let mp i j := if i <=? j then lil (if i =? j then half else gis_value S train i j) else None in
    Ok (SMat (srow S) (scol S) (fun i j => sp_plus (mp i j) (mp j i))).
  (** global_scaling.py:590-614: mutual_proximity_gaussi of a csr_matrix without
      idx.  Nothing looks at the metric after line 601. *)
  Definition gaussi_csr (S : smat V) (metric : string) (sample_size : Z) (min_nnz : Z)
      (test : option (list Z)) : result (smat V) :=
    check_distance_matrix_shape (Sparse (srow S) (scol S)) ;;
    check_valid_metric_parameter metric ;;
    gaussi_sparse S test.

  (** float32 storage of the result (lil_matrix(dtype=np.float32)) *)
  Variable r32 : V -> V.

  (** global_scaling.py:881-885, 984: unbiased variance *)
  Definition sp_va (S : smat V) (train : list nat) (j : nat) : V :=
    let nx := (Z.of_nat (length (sp_col S train j)) - 1)%Z in
    nmul (ndiv (nofZ nx) (nofZ (nx - 1)))
         (nsub (sp_E1 S train j) (nmul (sp_mu S train j) (sp_mu S train j))).
  (** global_scaling.py:888, 891 *)
  Definition sp_A (S : smat V) (train : list nat) (j : nat) : V :=
    let a := ndiv (nmul (sp_mu S train j) (sp_mu S train j)) (sp_va S train j) in
    if nlt a n0 then nnan else a.
  (** global_scaling.py:889, 892 *)
  Definition sp_B (S : smat V) (train : list nat) (j : nat) : V :=
    let b := ndiv (sp_va S train j) (sp_mu S train j) in
    if nle b n0 then nnan else b.

  (** global_scaling.py:894-925 and 996-1029: rows with enough entries are
      rescaled from the diagonal on, the result is mirrored, and the other rows
      are replaced by those of S. *)
  Definition sp_finish (S : smat V) (min_nnz : nat) (v : nat -> nat -> V) : smat V :=
    let poor i := row_nnz S i <=? min_nnz in
    let mp i j := if (i <=? j) && negb (poor i)
                  then lil (r32 (if i =? j then half else v i j)) else None in
    let sum i j := match sp_plus (mp i j) (mp j i) with Some x => Some (r32 x) | None => None end in
    SMat (srow S) (scol S) (fun i j => if poor i then lil (r32 (sval S i j)) else sum i j).

  (** global_scaling.py:908-913: [tmp[1:]] of _mutual_proximity_gammai_sparse *)
  Definition gas_value (S : smat V) (train : list nat) (i j : nat) : V :=
    nmul (gamcdf (sval S i j) (sp_A S train i) (sp_B S train i))
         (gamcdf (sval S j i) (sp_A S train j) (sp_B S train j)).
  (** global_scaling.py:851-925 _mutual_proximity_gammai_sparse *)
  Definition gammai_sparse (S : smat V) (min_nnz : nat) (test : option (list Z)) : result (smat V) :=
    guard (negb (unit_diagonal S)) ValueError ;;
    Ok (sp_finish S min_nnz (gas_value S (train_rows (srow S) test))).
  (** global_scaling.py:795-816: mutual_proximity_gammai of a csr_matrix *)
  Definition gammai_csr (S : smat V) (metric : string) (min_nnz : nat)
      (test : option (list Z)) : result (smat V) :=
    check_distance_matrix_shape (Sparse (srow S) (scol S)) ;;
    check_valid_metric_parameter metric ;;
    gammai_sparse S min_nnz test.

  (** global_scaling.py:952-954 _gumbelcdf and 956-1029
      _mutual_proximity_gumbel_sparse (no public function calls it); [sqrt6] stands
      for [np.sqrt(6)], [pi] for [np.pi], [euler] for [np.euler_gamma] *)
  Variable vexp : V -> V.
  Variables sqrt6 pi euler : V.
  (** global_scaling.py:952-954 _gumbelcdf *)
  Definition gumbelcdf (x mu beta : V) : V :=
    vexp (nopp (vexp (ndiv (nopp (nsub x mu)) beta))).
  (** global_scaling.py:986-992, 1010-1017: [tmp[1:]] *)
  Definition gus_value (S : smat V) (train : list nat) (i j : nat) : V :=
    let beta k := ndiv (nmul (nsqrt (sp_va S train k)) sqrt6) pi in
    let mu k := nsub (sp_mu S train k) (nmul euler (beta k)) in
    let p x k := if neq x n0 then n0 else gumbelcdf x (mu k) (beta k) in
    nmul (p (sval S i j) i) (p (sval S j i) j).
  (** global_scaling.py:956-1029 _mutual_proximity_gumbel_sparse *)
  Definition gumbel_sparse (S : smat V) (min_nnz : nat) (test : option (list Z)) : result (smat V) :=
    guard (negb (unit_diagonal S)) ValueError ;;
    Ok (sp_finish S min_nnz (gus_value S (train_rows (srow S) test))).
End MPDist.
