(** Model of /repo/hub_toolbox/approximate.py, part 4: the estimator as an object
    whose methods fit, transform and predict are called in any order, with fixed
    vantage points (sampling_algorithm None, 'random' or 'kmeans++').

    The object's attributes are the state.  Labels [y], if given, have one entry
    per row of X.  sklearn's NotFittedError is the outcome [NotFitted].  Verbosity,
    timing (_times) and warnings are not modelled.  What the attributes mean for
    values is in M_Approx.v, whose definitions are used here. *)
From Coq Require Import String.
From Coq Require Import ZArith List Arith Lia Bool.
From Verif Require Import Py Num Arr Sort Conc M_LS M_Dist M_HubnessClass M_Approx M_ApproxPredict.
Import ListNotations.
Local Open Scope py_scope.

(** sampling_algorithm, for fixed vantage points (approximate.py:795, 870, 1018, 1114, 1226) *)
Inductive skind := KNone | KRandom | KKmeans.
(** constructor arguments that no method changes (approximate.py:433-442) *)
Record par := Par { p_hr : option string; p_metric : string; p_k : nat; p_kind : skind; p_jobs : Z; p_kw : option nat }.
(** what a method call ends with (approximate.py:1393-1526) *)
Inductive outcome (A : Type) := Done (a : A) | Failed (e : exc) | NotFitted.
Arguments Done {A}. Arguments Failed {A}. Arguments NotFitted {A}.

Section Life.
  Context {V : Type} {N : Num V}.
  Variable vsum : list V -> V.
  Variable sdist : string -> nat -> (nat -> V) -> (nat -> V) -> V.
  Variables (vexp : V -> V) (vsf : V -> V -> V -> V).
  Variable vstore : f64 -> V.
  Variable part : list V -> list nat -> list V.
  Variable argpart : list V -> list nat -> list nat.
  Variable P : par.

  (** attributes that only some algorithms set: mu_train_ and sd_train_
      (approximate.py:1061-1062), r_train_ (1127), X_train_dist_to_cent_ (1281) *)
  Inductive extra := ENone | EMoments (mu sd : list V) | ERadii (r : list (list V)) | ECent (dc : nat -> V).
  (** X_train_, y_train_, ind_train_ (approximate.py:821-823, 895-897, 1056-1058, 1145-1147, 1282-1284) *)
  Record fitted := Fitted { f_X : arr2 V; f_y : option (list Z); f_ind : list nat; f_extra : extra }.
  (** sec_dist_sparse_: the array sec_dist_ itself (approximate.py:527) or a new
      csr matrix of the given shape (535-538) *)
  Inductive sparse_attr := SameArray (D : arr2 V) | Csr (n m : nat) (M : nat -> nat -> option V).
  (** the attributes that methods change: n_samples, n_train_ (approximate.py:1416),
      those of [fitted], sec_dist_ and sec_dist_sparse_ *)
  Record est := Est { e_ns : nat; e_n : option nat; e_fit : option fitted; e_sec : option (arr2 V); e_sparse : option sparse_attr }.

  (** the sample of this call of fit: [ind] is what the sampler returned
      (approximate.py:797-804, 872-879, 1020-1025, 1116-1121, 1228-1233) *)
  Definition the_sample (ind : list nat) : sampling :=
    match p_kind P with KNone => SNone | KRandom => SRandom ind | KKmeans => SKMeans ind end.
  (** [self.hr_algorithm.upper() == ...] (approximate.py:1417-1429, 1463-1481) *)
  Definition hr_is (h : string) : bool := match p_hr P with Some s => String.eqb (upper s) h | None => false end.

  (** approximate.py:878, 1025: MP and MPG without sampling overwrite n_samples *)
  Definition fit_ns (ns n : nat) : nat :=
    match p_kind P with KNone => if hr_is "MP" || hr_is "MPG" then n else ns | _ => ns end.

  (** approximate.py:792-824 _fit_without_hr, 866-898 _fit_mp, 1014-1063 _fit_mpg,
      1110-1148 _fit_ls, 1223-1285 _fit_dsl, chosen at 1417-1432.  All of them set the
      attributes of [fitted] after the last statement that can raise. *)
  Definition core_fit (ns : nat) (ind : list nat) (X : arr2 V) (y : option (list Z)) : result fitted :=
    let s := the_sample ind in
    sampling_check s (nrow X) ns ;;
    let van := vantage s (nrow X) in
    let Xt := rows_at X van in
    let y := option_map (fun y => map (fun a => nth a y 0%Z) van) y in
    let* ex :=
      match p_hr P with
      | None => Ok ENone
      | Some _ =>
        if hr_is "MP" then Ok ENone
        else if hr_is "MPG" then
          guard (negb (known_metric (p_metric P))) ValueError ;;
          let (mu, sd) := mpg_moments vsum sdist (p_metric P) s Xt in Ok (EMoments mu sd)
        else if hr_is "LS" || hr_is "NICDM" then
          let* r := ls_fit sdist part (p_metric P) (p_k P) Xt in Ok (ERadii r)
        else if hr_is "DSL" then
          let* nt := dsl_train_nn sdist argpart (p_metric P) (p_k P) Xt in
          Ok (ECent (fun j => dist_to_cent vsum (p_metric P) (ncol Xt) (at2 Xt j) (centroid vsum Xt (nth j nt []))))
        else Raise ValueError
      end in
    Ok (Fitted Xt y van ex).

  (** approximate.py:827-860 _transform_without_hr, 900-1008 _transform_mp, 1065-1103
      _transform_mpg, 1150-1216 _transform_ls, 1287-1351 _transform_dsl, chosen at
      1463-1484.  They read X_train_, n_samples and the attributes in [extra]; sec_dist_
      is set at the end. *)
  Inductive core_transform (ns : nat) (f : fitted) (X : arr2 V) : result (arr2 V) -> Prop :=
  | ct_none : p_hr P = None ->
      core_transform ns f X (transform_without_hr sdist (p_metric P) (f_X f) X)
  | ct_mp r : hr_is "MP" = true ->
      transform_mp_fixed sdist vstore (p_metric P) ns (p_jobs P) (f_X f) X r -> core_transform ns f X r
  | ct_mpg mu sd : hr_is "MPG" = true -> f_extra f = EMoments mu sd ->
      core_transform ns f X
        (trans_check X (f_X f) ;;
         guard (negb (known_metric (p_metric P))) ValueError ;;
         let D := cross_dists sdist (p_metric P) X (f_X f) in
         Ok (Arr2 (nrow X) (nrow (f_X f)) (fun i j => nth j (mpg_row vsum vsf mu sd (rowl D i)) nnan)))
  | ct_ls nicdm r : (hr_is "LS" = true /\ nicdm = false \/ hr_is "NICDM" = true /\ nicdm = true) -> f_extra f = ERadii r ->
      core_transform ns f X
        (trans_check X (f_X f) ;;
         guard (negb (known_metric (p_metric P))) ValueError ;;
         let D := cross_dists sdist (p_metric P) X (f_X f) in
         let* rx := ls_rtest part (p_k P) D in
         Ok (Arr2 (nrow X) (nrow (f_X f)) (fun i j => ls_cell vsum vexp nicdm (p_k P) (at2 D i j) (nth i rx []) (nth j r []))))
  | ct_dsl dc : hr_is "DSL" = true -> f_extra f = ECent dc ->
      core_transform ns f X
        (trans_check X (f_X f) ;;
         guard (negb (known_metric (p_metric P))) ValueError ;;
         let D := cross_dists sdist (p_metric P) X (f_X f) in
         let* nx := dsl_test_nn argpart (p_k P) D in
         let cx i := dist_to_cent vsum (p_metric P) (ncol X) (at2 X i) (centroid vsum (f_X f) (nth i nx [])) in
         Ok (Arr2 (nrow X) (nrow (f_X f)) (fun i j => nsub (nsub (at2 D i j) (cx i)) (dc j)))).

  (** approximate.py:522-539 _sparse_distance_matrix *)
  Definition sparse_of (D : arr2 V) (f : fitted) (n_train : nat) : result sparse_attr :=
    match p_kind P with
    | KNone => Ok (SameArray D)
    | _ => let* M := sparse_distance_matrix D (FixedInd (f_ind f)) n_train in Ok (Csr (nrow D) n_train M)
    end.

  (** approximate.py:1393-1440 fit: n_train_ is set (1416) before the work is done *)
  Inductive do_fit (s : est) (ind : list nat) (X : arr2 V) (y : option (list Z)) : est -> outcome unit -> Prop :=
  | df_check e : fit_check X = Raise e -> do_fit s ind X y s (Failed e)
  | df_fail e : fit_check X = Ok tt -> core_fit (e_ns s) ind X y = Raise e ->
      do_fit s ind X y (Est (fit_ns (e_ns s) (nrow X)) (Some (nrow X)) (e_fit s) (e_sec s) (e_sparse s)) (Failed e)
  | df_ok f : fit_check X = Ok tt -> core_fit (e_ns s) ind X y = Ok f ->
      do_fit s ind X y (Est (fit_ns (e_ns s) (nrow X)) (Some (nrow X)) (Some f) (e_sec s) (e_sparse s)) (Done tt).

  (** approximate.py:1442-1495 transform *)
  Inductive do_transform (s : est) (X : arr2 V) : est -> outcome (arr2 V) -> Prop :=
  | dt_check e : check_array X = Raise e -> do_transform s X s (Failed e)
  | dt_unfitted : check_array X = Ok tt -> e_fit s = None -> do_transform s X s NotFitted
  | dt_fail f e : check_array X = Ok tt -> e_fit s = Some f -> core_transform (e_ns s) f X (Raise e) ->
      do_transform s X s (Failed e)
  | dt_sparse f n D e : check_array X = Ok tt -> e_fit s = Some f -> e_n s = Some n ->
      core_transform (e_ns s) f X (Ok D) -> sparse_of D f n = Raise e ->
      do_transform s X (Est (e_ns s) (e_n s) (e_fit s) (Some D) (e_sparse s)) (Failed e)
  | dt_ok f n D S : check_array X = Ok tt -> e_fit s = Some f -> e_n s = Some n ->
      core_transform (e_ns s) f X (Ok D) -> sparse_of D f n = Ok S ->
      do_transform s X (Est (e_ns s) (e_n s) (e_fit s) (Some D) (Some S)) (Done D).

  (** approximate.py:1497-1526 predict.  enforce_finite_distances (1514) changes
      the array sec_dist_ in place, and with it sec_dist_sparse_ if that is the same
      array.  The classifier refuses missing labels. *)
  Inductive do_predict (s : est) (X : arr2 V) : est -> outcome (list Z) -> Prop :=
  | dp_unfitted : e_fit s = None -> do_predict s X s NotFitted
  | dp_transform s' e : e_fit s <> None -> do_transform s X s' (Failed e) -> do_predict s X s' (Failed e)
  | dp_empty s' D e : e_fit s <> None -> do_transform s X s' (Done D) -> finite_dists D = Raise e ->
      do_predict s X s' (Failed e)
  | dp_run s' D F f : e_fit s = Some f -> do_transform s X s' (Done D) -> finite_dists D = Ok F ->
      do_predict s X
        (Est (e_ns s') (e_n s') (e_fit s') (Some F)
             (match p_kind P with KNone => Some (SameArray F) | _ => e_sparse s' end))
        (match f_y f with
         | None => Failed ValueError
         | Some y => match predict_fixed argpart (p_kw P) D y with Ok l => Done l | Raise e => Failed e end
         end).

  (** one method call, and any number of calls (approximate.py:1393-1526).  A [call]
      records the arguments and, for fit, the sample drawn. *)
  Inductive call := CFit (ind : list nat) (X : arr2 V) (y : option (list Z)) | CTransform (X : arr2 V) | CPredict (X : arr2 V).
  (** how the call ended: [true] = normally (approximate.py:1393-1526) *)
  Inductive step (s : est) : call -> est -> bool -> Prop :=
  | s_fit ind X y s' o : do_fit s ind X y s' o -> step s (CFit ind X y) s' (match o with Done _ => true | _ => false end)
  | s_trans X s' o : do_transform s X s' o -> step s (CTransform X) s' (match o with Done _ => true | _ => false end)
  | s_pred X s' o : do_predict s X s' o -> step s (CPredict X) s' (match o with Done _ => true | _ => false end).
  (** a history of calls (approximate.py:1393-1526) *)
  Inductive history (s : est) : list (call * bool) -> est -> Prop :=
  | h_nil : history s [] s
  | h_snoc l c b s1 s2 : history s l s1 -> step s1 c s2 b -> history s (l ++ [(c, b)]) s2.
  (** the object after its constructor (approximate.py:429-493) *)
  Definition fresh (ns : nat) : est := Est ns None None None None.
End Life.
