(** Model of /repo/hub_toolbox/hubness_analysis.py.  Printing is
    modelled in M_Report.v.
    Data are 2-D matrices; class labels are integers. *)
From Coq Require Import String Ascii.
From Coq Require Import ZArith List Arith Lia Bool Permutation.
From Verif Require Import Py Num Arr Sort Conc S_Neighbors M_IO M_Hubness M_SNN M_MPEmpiric M_LS M_Dist M_Centering M_GK M_KNN.
Import ListNotations.
Local Open Scope py_scope.

(** str.split(',') (used at hubness_analysis.py:209) *)
Fixpoint split_comma_aux (cur : string) (s : string) : list string :=
  match s with
  | EmptyString => [cur]
  | String c s' => if Ascii.eqb c ","%char then cur :: split_comma_aux EmptyString s'
                   else split_comma_aux (String.append cur (String c EmptyString)) s'
  end.
(** hubness_analysis.py:209 *)
Definition split_comma (s : string) : list string := split_comma_aux EmptyString s.

(** hubness_analysis.py:51-63: the keys of SEC_DIST *)
Definition sec_names : list string :=
  ["mp"; "mp_gaussi"; "mp_gammai"; "ls"; "nicdm"; "snn"; "cent"; "wcent"; "lcent"; "dsg"; "dsl"; "orig"]%string.
(** hubness_analysis.py:332: [in SEC_DIST.keys()] *)
Definition known (name : string) : bool := existsb (String.eqb name) sec_names.
(** hubness_analysis.py:169: default of [experiments] *)
Definition default_experiments : string := "orig,mp,mp_gaussi,nicdm,cent,dsg".

(** assignment to a dict (used at hubness_analysis.py:382-384, 391) *)
Fixpoint dset {A} (k : Z) (v : A) (d : list (Z * A)) : list (Z * A) :=
  match d with
  | [] => [(k, v)]
  | (k', v') :: d' => if Z.eqb k k' then (k, v) :: d' else (k', v') :: dset k v d'
  end.
(** reading one of these dicts, hubness_analysis.py:349-352 *)
Fixpoint dget {A} (k : Z) (d : list (Z * A)) : option A :=
  match d with [] => None | (k', v) :: d' => if Z.eqb k k' then Some v else dget k d' end.

Section Analysis.
  Context {V : Type} {N : Num V}.
  Variables (vexp vln : V -> V) (vsum : list V -> V) (vpow : V -> V -> V).
  Variable argpart : list V -> list nat -> list nat.
  Variable part : list V -> list nat -> list V.
  Variables (argsort stable : list V -> list nat) (sort : list V -> list V).
  Variable cpu : nat.
  (** mutual_proximity_gaussi, mutual_proximity_gammai and intrinsic_dimension
      with their default parameters enter as arbitrary functions *)
  Variables (gaussi gammai : arr2 V -> string -> result (arr2 V)) (idim : arr2 V -> result V).

  (** what _calc_hubness stores for one k (hubness_analysis.py:374-385) *)
  Record hubres := HubRes { h_out : hub_out; h_anti : V; h_max : V }.

  (** hubness_analysis.py:322-353: an experiment after its calculations *)
  Record experiment := Exp {
    e_type : string; e_sec : arr2 V;
    e_hub : list (Z * hubres); e_knn : list (Z * V); e_gk : option V }.

  (** hubness_analysis.py:98-147: the analysis object *)
  Record analysis := Ana {
    a_D : arr2 V; a_classes : option (list Z); a_vectors : option (arr2 V);
    a_metric : string; a_exps : list experiment }.

  (** hubness_analysis.py:325-340: checks of the constructor of an experiment *)
  Definition exp_checks (a : analysis) (name : string) : result unit :=
    let D := Dense [nrow (a_D a); ncol (a_D a)] in
    check_distance_matrix_shape D ;;
    check_valid_metric_parameter (a_metric a) ;;
    guard (negb (known name)) ValueError ;;
    match a_classes a with None => Ok tt | Some y => check_distance_matrix_shape_fits_labels D (Dense [length y]) end ;;
    match a_vectors a with None => Ok tt | Some X => check_distance_matrix_shape_fits_vectors D (Dense [nrow X; ncol X]) end.

  (** hubness_analysis.py:355-372: a TypeError of a matrix based method is
      turned into ValueError *)
  Definition demote {A} (r : result A) : result A :=
    match r with Raise TypeError => Raise ValueError | r => r end.

  (** the methods that take D and metric (hubness_analysis.py:51-56, 62, 359-360) *)
  Inductive matrix_method (D : arr2 V) (metric : string) : string -> result (arr2 V) -> Prop :=
  | mm_mp : matrix_method D metric "mp" (mp_empiric_full D metric TNone)
  | mm_gaussi : matrix_method D metric "mp_gaussi" (gaussi D metric)
  | mm_gammai : matrix_method D metric "mp_gammai" (gammai D metric)
  | mm_ls r : local_scaling vexp part D 7 metric None cpu 1 r -> matrix_method D metric "ls" r
  | mm_nicdm r : nicdm vexp vln vsum part D 7 metric None cpu 1 r -> matrix_method D metric "nicdm" r
  | mm_snn : matrix_method D metric "snn" (snn_serial argpart D 10 metric)
  | mm_orig : matrix_method D metric "orig" (Ok D).

  (** the methods that have no keyword D: the first call raises TypeError and
      they are called with the vectors instead (hubness_analysis.py:361-368) *)
  Inductive vector_method (X : arr2 V) : string -> result (arr2 V) -> Prop :=
  | vm_cent : vector_method X "cent" (let* Y := centering vsum X "vector" None in Ok (cosine_distance vsum Y))
  | vm_wcent : vector_method X "wcent" (let* Y := weighted_centering vsum vpow X "cosine" n1 None in Ok (cosine_distance vsum Y))
  | vm_lcent r : localized_centering vsum vpow argpart X None 40 n1 cpu 1 r ->
      vector_method X "lcent" (let* Q := r in Ok (Arr2 (nrow Q) (ncol Q) (fun i j => nsub n1 (at2 Q i j))))
  | vm_dsg : vector_method X "dsg" (dis_sim_global vsum X None)
  | vm_dsl r : dis_sim_local vsum argpart X 10 1 None r -> vector_method X "dsl" r.

  (** hubness_analysis.py:355-372 _calc_secondary_distance.  Without vectors the
      first use of None raises AttributeError ([X.shape], [X.copy()]) or, for
      localized centering, TypeError ([X ** 2]). *)
  Inductive sec_distance (a : analysis) (name : string) : result (arr2 V) -> Prop :=
  | sd_matrix r : matrix_method (a_D a) (a_metric a) name r -> sec_distance a name (demote r)
  | sd_vector X r : a_vectors a = Some X -> vector_method X name r -> sec_distance a name r
  | sd_none_attr : a_vectors a = None -> In name ["cent"; "wcent"; "dsg"; "dsl"]%string -> sec_distance a name (Raise AttributeError)
  | sd_none_type : a_vectors a = None -> name = "lcent"%string -> sec_distance a name (Raise TypeError).

  (** hubness_analysis.py:374-385 _calc_hubness; [rps] are the permutations
      drawn by hubness.  [N_k.max()] of an empty vector raises ValueError. *)
  Definition calc_hubness (n : nat) (S : arr2 V) (metric : string) (k : Z) (rps : nat -> list nat) : result hubres :=
    let* o := hubness_serial argpart false S k metric true rps in
    guard (length (out_Nk o) =? 0) ValueError ;;
    Ok (HubRes o (ndiv (nofnat (100 * count_if (fun j => nth j (out_Nk o) 0 =? 0) (length (out_Nk o)))) (nofnat n))
                 (ndiv (nofnat (100 * max_list (out_Nk o))) (nofnat n))).

  (** hubness_analysis.py:225-226 *)
  Inductive hub_loop (n : nat) (S : arr2 V) (metric : string) :
      list Z -> list (Z * hubres) -> result (list (Z * hubres)) -> Prop :=
  | hl_nil d : hub_loop n S metric [] d (Ok d)
  | hl_raise k ks d rps e : (forall i, Permutation (rps i) (seq 0 (ncol S))) ->
      calc_hubness n S metric k rps = Raise e -> hub_loop n S metric (k :: ks) d (Raise e)
  | hl_step k ks d rps h r : (forall i, Permutation (rps i) (seq 0 (ncol S))) ->
      calc_hubness n S metric k rps = Ok h -> hub_loop n S metric ks (dset k h d) r ->
      hub_loop n S metric (k :: ks) d r.

  (** hubness_analysis.py:387-392 _calc_knn_accuracy *)
  Definition calc_knn (S : arr2 V) (metric : string) (y : list Z) (k : Z)
      (rp : nat -> list nat -> list nat) (sh : nat -> nat -> list nat -> list nat) : result V :=
    let* st := score argsort rp sh S y [k] metric None None in
    Ok (match st with s :: _ => k_acc s | [] => n0 end).

  (** hubness_analysis.py:228-229 *)
  Inductive knn_loop (S : arr2 V) (metric : string) (y : list Z) :
      list Z -> list (Z * V) -> result (list (Z * V)) -> Prop :=
  | kl_nil d : knn_loop S metric y [] d (Ok d)
  | kl_raise k ks d rp sh e : (forall i l, Permutation (rp i l) l) -> (forall i j l, Permutation (sh i j l) l) ->
      calc_knn S metric y k rp sh = Raise e -> knn_loop S metric y (k :: ks) d (Raise e)
  | kl_step k ks d rp sh v r : (forall i l, Permutation (rp i l) l) -> (forall i j l, Permutation (sh i j l) l) ->
      calc_knn S metric y k rp sh = Ok v -> knn_loop S metric y ks (dset k v d) r ->
      knn_loop S metric y (k :: ks) d r.

  (** hubness_analysis.py:218-231: one pass of the loop over experiments *)
  Inductive exp_run (a : analysis) (name : string) (hks kks : list Z) : result experiment -> Prop :=
  | er_checks e : exp_checks a name = Raise e -> exp_run a name hks kks (Raise e)
  | er_sec e : exp_checks a name = Ok tt -> sec_distance a name (Raise e) -> exp_run a name hks kks (Raise e)
  | er_hub S e : exp_checks a name = Ok tt -> sec_distance a name (Ok S) ->
      hub_loop (nrow (a_D a)) S (a_metric a) hks [] (Raise e) -> exp_run a name hks kks (Raise e)
  | er_plain S h : exp_checks a name = Ok tt -> sec_distance a name (Ok S) ->
      hub_loop (nrow (a_D a)) S (a_metric a) hks [] (Ok h) -> a_classes a = None ->
      exp_run a name hks kks (Ok (Exp name S h [] None))
  | er_knn S h y e : exp_checks a name = Ok tt -> sec_distance a name (Ok S) ->
      hub_loop (nrow (a_D a)) S (a_metric a) hks [] (Ok h) -> a_classes a = Some y ->
      knn_loop S (a_metric a) y kks [] (Raise e) -> exp_run a name hks kks (Raise e)
  | er_gk S h y acc e : exp_checks a name = Ok tt -> sec_distance a name (Ok S) ->
      hub_loop (nrow (a_D a)) S (a_metric a) hks [] (Ok h) -> a_classes a = Some y ->
      knn_loop S (a_metric a) y kks [] (Ok acc) ->
      goodman_kruskal_index stable sort S y (a_metric a) = Raise e -> exp_run a name hks kks (Raise e)
  | er_full S h y acc g : exp_checks a name = Ok tt -> sec_distance a name (Ok S) ->
      hub_loop (nrow (a_D a)) S (a_metric a) hks [] (Ok h) -> a_classes a = Some y ->
      knn_loop S (a_metric a) y kks [] (Ok acc) ->
      goodman_kruskal_index stable sort S y (a_metric a) = Ok g ->
      exp_run a name hks kks (Ok (Exp name S h acc (Some g))).

  (** the loop over the names: the experiments appended, and the exception that
      ended it, if any (hubness_analysis.py:214-231) *)
  Inductive exps_run (a : analysis) (hks kks : list Z) : list string -> list experiment -> option exc -> Prop :=
  | xr_nil : exps_run a hks kks [] [] None
  | xr_raise name names e : exp_run a name hks kks (Raise e) -> exps_run a hks kks (name :: names) [] (Some e)
  | xr_step name names x xs o : exp_run a name hks kks (Ok x) -> exps_run a hks kks names xs o ->
      exps_run a hks kks (name :: names) (x :: xs) o.

  (** hubness_analysis.py:169-241 analyze_hubness: the object afterwards and the
      exception raised, if any *)
  Inductive analyze (a : analysis) (exps : string) (hks kks : list Z) : analysis -> option exc -> Prop :=
  | an_idim X e : a_vectors a = Some X -> idim X = Raise e -> analyze a exps hks kks a (Some e)
  | an_run xs o : (match a_vectors a with None => True | Some X => exists v, idim X = Ok v end) ->
      exps_run a hks kks (split_comma exps) xs o ->
      analyze a exps hks kks (Ana (a_D a) (a_classes a) (a_vectors a) (a_metric a) (a_exps a ++ xs)) o.

  (** a history of calls (whose exceptions are caught by the caller)
      (the arguments of hubness_analysis.py:169-171) *)
  Record call := Call { c_exps : string; c_hks : list Z; c_kks : list Z }.
  (** repeated calls of hubness_analysis.py:169-241 *)
  Inductive history : analysis -> list call -> list (option exc) -> analysis -> Prop :=
  | hi_nil a : history a [] [] a
  | hi_call a c cs o os a1 a2 : analyze a (c_exps c) (c_hks c) (c_kks c) a1 o -> history a1 cs os a2 ->
      history a (c :: cs) (o :: os) a2.

  (** hubness_analysis.py:98-147 __init__ with a matrix *)
  Definition new_analysis (D : arr2 V) (y : option (list Z)) (X : option (arr2 V)) (metric : string) : analysis :=
    Ana D y X metric [].
End Analysis.
Arguments HubRes {V}. Arguments Exp {V}. Arguments Ana {V}.
