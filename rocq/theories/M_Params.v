(** Model of /repo/hub_toolbox/approximate.py, part 5: the parameters of the
    estimator as seen by scikit-learn (get_params, set_params, rebuilding an object
    from its parameters, as sklearn.base.clone, Pipeline and GridSearchCV do).

    SuQHR derives from sklearn's BaseEstimator (approximate.py:352), which reads the
    parameter names from the signature of __init__ (429-432), leaving out **kwargs.
    get_params and set_params are library code, modelled by their documented
    behaviour; additional identity checks that some versions of clone make are not
    modelled.  random_state and the values of the keyword options are opaque
    integers, the named parameters have the types the documentation gives them. *)
From Coq Require Import String Ascii.
From Coq Require Import ZArith List Arith Lia Bool.
From Verif Require Import Py M_HubnessClass M_Approx.
Import ListNotations.
Local Open Scope py_scope.

(** the arguments of __init__ and, with the same names, the attributes it sets
    (approximate.py:429-442) *)
Record params := Params {
  a_hr : option string; a_k : option Z; a_ns : option Z; a_samp : option string; a_metric : string; a_pred : string;
  a_rs : option Z; a_jobs : Z; a_verb : Z; a_kw : list (string * Z) }.

(** [if x is not None: if x < 1: raise ValueError] (approximate.py:456-464) *)
Definition at_least_one (x : option Z) : result unit :=
  match x with None => Ok tt | Some z => guard (z <? 1)%Z ValueError end.

(** approximate.py:429-493 SuQHR.__init__: the object made from the arguments [a];
    [cpu] processors, [lsh], [hnsw]: whether falconn and nmslib are installed. *)
Definition construct (cpu : nat) (lsh hnsw : bool) (a : params) : result params :=
  let* hr := match a_hr a with
    | None => Ok None
    | Some h => if String.eqb (upper h) "NONE" then Ok None
                else if negb (mem_str (upper h) valid_hr) then Raise ValueError else Ok (Some (upper h))
    end in
  at_least_one (a_k a) ;;
  at_least_one (a_ns a) ;;
  let* samp := match a_samp a with
    | None => Ok None
    | Some s => if String.eqb (lower s) "none" then Ok None
                else if negb (mem_str (lower s) valid_sample) then Raise ValueError
                else if String.eqb (lower s) "lsh" && negb lsh then Raise ImportError
                else if String.eqb (lower s) "hnsw" && negb hnsw then Raise ImportError
                else Ok (Some (lower s))
    end in
  guard (negb (mem_str (a_metric a) valid_metrics)) ValueError ;;
  guard (negb (String.eqb (a_pred a) "knn")) ValueError ;;
  let* j := (if (a_jobs a =? -1)%Z then Ok (Z.of_nat cpu)
             else guard ((a_jobs a <? -1) || (a_jobs a =? 0))%Z ValueError ;; Ok (a_jobs a)) in
  guard (a_verb a <? 0)%Z ValueError ;;
  Ok (Params hr (a_k a) (a_ns a) samp (a_metric a) (a_pred a) (a_rs a) j (a_verb a) (a_kw a)).

(** BaseEstimator.get_params of an object (approximate.py:352, 429-442): the
    attributes named in the signature of __init__, without the keyword options *)
Definition get_params (o : params) : params :=
  Params (a_hr o) (a_k o) (a_ns o) (a_samp o) (a_metric o) (a_pred o) (a_rs o) (a_jobs o) (a_verb o) [].
(** a new object with the parameters of [o], [SuQHR( **o.get_params() )]
    (approximate.py:352, 429-493) *)
Definition rebuild (cpu : nat) (lsh hnsw : bool) (o : params) : result params := construct cpu lsh hnsw (get_params o).

(** the names in the signature of __init__ (approximate.py:429-432) *)
Definition param_names : list string :=
  ["hr_algorithm"; "n_neighbors"; "n_samples"; "sampling_algorithm"; "metric"; "predictor"; "random_state"; "n_jobs"; "verbose"]%string.
(** [name.partition('__')[0]] in BaseEstimator.set_params (approximate.py:352) *)
Fixpoint before_dunder (s : string) : string :=
  match s with
  | String "_" (String "_" _) => EmptyString
  | String c s => String c (before_dunder s)
  | EmptyString => EmptyString
  end.
(** one argument of set_params: a parameter with a value of its type, or any other
    keyword (approximate.py:352, 429-432) *)
Inductive setting :=
  | SetHr (v : option string) | SetK (v : option Z) | SetNs (v : option Z) | SetSamp (v : option string)
  | SetMetric (v : string) | SetPred (v : string) | SetRs (v : option Z) | SetJobs (v : Z) | SetVerb (v : Z)
  | SetOther (key : string) (v : Z).
(** BaseEstimator.set_params with one argument (approximate.py:352): the attribute is
    assigned, __init__ is not run again.  A keyword whose part before '__' is no
    parameter name is a ValueError; a nested one asks the parameter's value for its
    own set_params, which strings and numbers do not have. *)
Definition set_param (o : params) (s : setting) : result params :=
  let 'Params hr k ns samp metric pred rs jobs verb kw := o in
  match s with
  | SetHr v => Ok (Params v k ns samp metric pred rs jobs verb kw)
  | SetK v => Ok (Params hr v ns samp metric pred rs jobs verb kw)
  | SetNs v => Ok (Params hr k v samp metric pred rs jobs verb kw)
  | SetSamp v => Ok (Params hr k ns v metric pred rs jobs verb kw)
  | SetMetric v => Ok (Params hr k ns samp v pred rs jobs verb kw)
  | SetPred v => Ok (Params hr k ns samp metric v rs jobs verb kw)
  | SetRs v => Ok (Params hr k ns samp metric pred v jobs verb kw)
  | SetJobs v => Ok (Params hr k ns samp metric pred rs v verb kw)
  | SetVerb v => Ok (Params hr k ns samp metric pred rs jobs v kw)
  | SetOther key _ => if mem_str (before_dunder key) param_names then Raise AttributeError else Raise ValueError
  end.

(** what fit leaves in the parameters after data with [n] rows: without sampling, MP and
    MPG overwrite n_samples (approximate.py:866-898 at 878, 1014-1063 at 1026, chosen at
    1417-1432, where the name is compared in upper case) *)
Definition after_fit (n : nat) (o : params) : params :=
  match a_samp o, a_hr o with
  | None, Some h => if String.eqb (upper h) "MP" || String.eqb (upper h) "MPG"
      then Params (a_hr o) (a_k o) (Some (Z.of_nat n)) (a_samp o) (a_metric o) (a_pred o) (a_rs o) (a_jobs o) (a_verb o) (a_kw o)
      else o
  | _, _ => o
  end.

(** [self.kwargs[key]] (approximate.py:610-614, 1356-1363) *)
Definition option_value (key : string) (o : params) : option Z :=
  option_map snd (find (fun kv => String.eqb (fst kv) key) (a_kw o)).
(** the number of neighbours that vote with fixed vantage points (approximate.py:1356-1359):
    the argument [kw] of [predict_fixed] in M_ApproxPredict.v, which applies the default *)
Definition voters (o : params) : option nat := option_map Z.to_nat (option_value "knn__n_neighbors" o).
