(** Model of the printed report (/repo/hub_toolbox/hubness_analysis.py:169-319).
    A printed line is modelled by the values it shows, not by its characters;
    the conversion of floats to decimal digits is not modelled.  Python's round
    is, because it raises for NaN and infinity. *)
From Coq Require Import String Ascii.
From Coq Require Import ZArith List Arith Lia Bool Permutation.
From Flocq Require Import IEEE754.BinarySingleNaN.
From Verif Require Import Py Num Arr Sort Conc S_Neighbors M_IO M_Hubness M_SNN M_MPEmpiric M_LS M_Dist M_Centering M_GK M_KNN M_Analysis.
Import ListNotations.
Local Open Scope py_scope.

(** [m / 2^e] rounded to the nearest integer, ties to even, for m >= 0
    (used by hubness_analysis.py:317) *)
Definition div_half_even (m e : Z) : Z :=
  let d := (2 ^ e)%Z in let q := (m / d)%Z in let r := (m mod d)%Z in
  if (2 * r <? d)%Z then q else if (d <? 2 * r)%Z then (q + 1)%Z
  else if Z.even q then q else (q + 1)%Z.
(** round(x) of a float64 (hubness_analysis.py:317) *)
Definition py_round (x : f64) : result Z :=
  match x with
  | B754_nan => Raise ValueError
  | B754_infinity _ => Raise OverflowError
  | B754_zero _ => Ok 0%Z
  | B754_finite s m e _ =>
      let z := if (0 <=? e)%Z then (Zpos m * 2 ^ e)%Z else div_half_even (Zpos m) (- e) in
      Ok (if s then (- z)%Z else z)
  end.

(** sorted() of the keys of a dict (hubness_analysis.py:280, 291) *)
Fixpoint zinsert (x : Z) (l : list Z) : list Z :=
  match l with [] => [x] | y :: l' => if (x <=? y)%Z then x :: l else y :: zinsert x l' end.
(** hubness_analysis.py:280, 291 *)
Definition zsorted (l : list Z) : list Z := fold_right zinsert [] l.

(** a printed line (hubness_analysis.py:235-241, 263-318) *)
Inductive line {V : Type} : Type :=
| LHeadline                               (* 264-267 *)
| LTitle (title : string)                 (* 269, without the colon *)
| LParam (p : string) (default : Z)       (* 274-276 *)
| LSk (k : Z) (o : hub_out)               (* 281-282: the skewness of the occurrences *)
| LAnti (k : Z) (v : V)                   (* 283-284 *)
| LMax (k : Z) (v : V)                    (* 285-286 *)
| LKnn (k : Z) (v : V)                    (* 292-293: 100 times this value *)
| LNoGk | LGk (v : V)                     (* 299-303 *)
| LNoEmbedding | LEmbedding (m : nat)     (* 306-310 *)
| LNoDimension | LDimension (d : Z)       (* 313-317 *)
| LThanks.                                (* 235-241 *)
Arguments line : clear implicits.

(** the defaults of k, kappa and gamma in the signatures of the functions in SEC_DIST
    (hubness_analysis.py:271-278; local_scaling.py:174, 431, shared_neighbors.py:199,
    centering.py:96, 188-189, 345) *)
Definition default_params (name : string) : list (string * Z) :=
  (if String.eqb name "ls" then [("k", 7)]
   else if String.eqb name "nicdm" then [("k", 7)]
   else if String.eqb name "snn" then [("k", 10)]
   else if String.eqb name "wcent" then [("gamma", 1)]
   else if String.eqb name "lcent" then [("kappa", 40); ("gamma", 1)]
   else if String.eqb name "dsl" then [("k", 10)]
   else [])%string%Z.

(** hubness_analysis.py:149-162 _header *)
Definition headers : list (string * string) :=
  [("mp", "MUTUAL PROXIMITY (Empiric)"); ("mp_gaussi", "MUTUAL PROXIMITY (Independent Gaussians)");
   ("mp_gammai", "MUTUAL PROXIMITY (Independent Gamma)"); ("ls", "LOCAL SCALING (original)");
   ("nicdm", "LOCAL SCALING (NICDM)"); ("snn", "SHARED NEAREST NEIGHBORS"); ("cent", "CENTERING");
   ("wcent", "WEIGHTED CENTERING"); ("lcent", "LOCALIZED CENTERING"); ("dsg", "DISSIM GLOBAL");
   ("dsl", "DISSIM LOCAL"); ("orig", "ORIGINAL DATA")]%string.
(** hubness_analysis.py:269: the lookup in _header; no experiment has another
    name, see exp_checks *)
Definition header (name : string) : string :=
  match find (fun h => String.eqb name (fst h)) headers with Some h => snd h | None => EmptyString end.

Section Report.
  Context {V : Type} {N : Num V}.
  Variables (vexp vln : V -> V) (vsum : list V -> V) (vpow : V -> V -> V).
  Variable argpart : list V -> list nat -> list nat.
  Variable part : list V -> list nat -> list V.
  Variables (argsort stable : list V -> list nat) (sort : list V -> list V).
  Variable cpu : nat.
  Variables (gaussi gammai : arr2 V -> string -> result (arr2 V)) (idim : arr2 V -> result V).
  (** round() *)
  Variable vround : V -> result Z.

  (** hubness_analysis.py:268-303: the lines before the dimensions *)
  Definition result_lines (x : experiment (V:=V)) : list (line V) :=
    LTitle (header (e_type x))
    :: map (fun p => LParam (fst p) (snd p)) (default_params (e_type x))
    ++ flat_map (fun k => match dget k (e_hub x) with
                          | Some h => [LSk k (h_out h); LAnti k (h_anti h); LMax k (h_max h)]
                          | None => [] end) (zsorted (map fst (e_hub x)))
    ++ flat_map (fun k => match dget k (e_knn x) with Some v => [LKnn k v] | None => [] end)
                (zsorted (map fst (e_knn x)))
    ++ [match e_gk x with None => LNoGk | Some g => LGk g end].

  (** hubness_analysis.py:268-318, one experiment: lines printed and the
      exception that ended it, if any; [dim] is self.intrinsic_dim *)
  Definition report_one (a : analysis (V:=V)) (dim : option V) (x : experiment (V:=V)) : list (line V) * option exc :=
    let ls := result_lines x ++ [match a_vectors a with None => LNoEmbedding | Some X => LEmbedding (ncol X) end] in
    match dim with
    | None => (ls ++ [LNoDimension], None)
    | Some v => match vround v with Ok d => (ls ++ [LDimension d], None) | Raise e => (ls, Some e) end
    end.

  (** hubness_analysis.py:264-267: the headline of the first report *)
  Definition headline (nr : nat) : list (line V) := if nr =? 0 then [LHeadline] else [].

  (** hubness_analysis.py:243-319 print_analysis_report() without an experiment:
      all experiments, until one of them raises *)
  Fixpoint report_all (a : analysis (V:=V)) (dim : option V) (xs : list (experiment (V:=V))) : list (line V) * option exc :=
    match xs with
    | [] => ([], None)
    | x :: xs' => let (ls, o) := report_one a dim x in
        match o with
        | Some e => (ls, Some e)
        | None => let (ls', o') := report_all a dim xs' in (ls ++ ls', o')
        end
    end.
  (** hubness_analysis.py:243-319 *)
  Definition print_analysis_report (a : analysis (V:=V)) (dim : option V) (nr : nat) : list (line V) * option exc :=
    let (ls, o) := report_all a dim (a_exps a) in (headline nr ++ ls, o).

  (** hubness_analysis.py:214-233 with print_results=True: as exps_run, with the
      lines printed; [nr] is the loop variable i *)
  Inductive exps_print (a : analysis (V:=V)) (dim : option V) (hks kks : list Z) :
      nat -> list string -> list (experiment (V:=V)) -> list (line V) -> option exc -> Prop :=
  | xp_nil nr : exps_print a dim hks kks nr [] [] [] None
  | xp_raise nr name names e :
      exp_run vexp vln vsum vpow argpart part argsort stable sort cpu gaussi gammai a name hks kks (Raise e) ->
      exps_print a dim hks kks nr (name :: names) [] [] (Some e)
  | xp_report nr name names x ls e :
      exp_run vexp vln vsum vpow argpart part argsort stable sort cpu gaussi gammai a name hks kks (Ok x) ->
      report_one a dim x = (ls, Some e) ->
      exps_print a dim hks kks nr (name :: names) [x] (headline nr ++ ls) (Some e)
  | xp_step nr name names x ls xs ls' o :
      exp_run vexp vln vsum vpow argpart part argsort stable sort cpu gaussi gammai a name hks kks (Ok x) ->
      report_one a dim x = (ls, None) ->
      exps_print a dim hks kks (nr + 1) names xs ls' o ->
      exps_print a dim hks kks nr (name :: names) (x :: xs) (headline nr ++ ls ++ ls') o.

  (** hubness_analysis.py:169-242 analyze_hubness with print_results=True: the
      object afterwards, the lines printed and the exception raised, if any *)
  Inductive analyze_print (a : analysis (V:=V)) (exps : string) (hks kks : list Z) :
      analysis (V:=V) -> list (line V) -> option exc -> Prop :=
  | ap_idim X e : a_vectors a = Some X -> idim X = Raise e -> analyze_print a exps hks kks a [] (Some e)
  | ap_run dim xs ls o :
      match a_vectors a with None => dim = None | Some X => exists v, idim X = Ok v /\ dim = Some v end ->
      exps_print a dim hks kks 0 (split_comma exps) xs ls o ->
      analyze_print a exps hks kks (Ana (a_D a) (a_classes a) (a_vectors a) (a_metric a) (a_exps a ++ xs))
        (ls ++ match o with None => [LThanks] | Some _ => [] end) o.
End Report.
