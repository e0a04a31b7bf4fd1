(** Model of the timing records of /repo/hub_toolbox/approximate.py: _times 495-520 and
    its callers fit 1393-1440, transform 1442-1495, predict 1497-1526.  The methods'
    actual work is represented by whether it raises; the readings of [os.times()] are
    inputs. *)
From Coq Require Import String.
From Coq Require Import ZArith List Arith Lia Bool.
From Verif Require Import Py Num.
Import ListNotations.
Local Open Scope py_scope.

Section Times.
  Context {V : Type} {N : Num V}.

  (** what [os.times()] returns (approximate.py:1407, 1438, 1459, 1490, 1513, 1522) *)
  Record tms := Tms { t_user : V; t_system : V; t_cuser : V; t_csystem : V; t_elapsed : V }.

  (** one row of the data frame built at approximate.py:496-512 *)
  Record timing := Timing { d_user : V; d_system : V; d_cuser : V; d_csystem : V; d_elapsed : V;
                            d_total : V; d_speedup : V }.

  (** Python's division of floats (approximate.py:509) *)
  Definition pydiv (a b : V) : result V := if neq b n0 then Raise ZeroDivisionError else Ok (ndiv a b).

  (** approximate.py:496-511 *)
  Definition times_row (a b : tms) : timing :=
    let u := nsub (t_user b) (t_user a) in
    let s := nsub (t_system b) (t_system a) in
    let cu := nsub (t_cuser b) (t_cuser a) in
    let cs := nsub (t_csystem b) (t_csystem a) in
    let el := nsub (t_elapsed b) (t_elapsed a) in
    let tot := nadd (nadd (nadd u s) cu) cs in
    Timing u s cu cs el tot (match pydiv tot el with Ok q => q | Raise _ => n0 end).

  (** the attributes [time_fit_], [time_transform_], [time_predict_] (approximate.py:513-518) *)
  Record timed := Timed { time_fit : option timing; time_transform : option timing; time_predict : option timing }.

  (** approximate.py:495-520 *)
  Definition times (action : string) (a b : tms) (st : timed) : result timed :=
    let df := times_row a b in
    if String.eqb action "fit" then Ok (Timed (Some df) (time_transform st) (time_predict st))
    else if String.eqb action "transform" then Ok (Timed (time_fit st) (Some df) (time_predict st))
    else if String.eqb action "predict" then Ok (Timed (time_fit st) (time_transform st) (Some df))
    else Raise ValueError.

  (** The calls of a history.  Every piece of work is given by the exception it raises, if
      any.  transform: lines 1460-1489 and line 1494; predict: line 1510, the call of
      transform, lines 1514-1521. *)
  Inductive call :=
  | CFit (a b : tms) (work : option exc)
  | CTransform (a b : tms) (work sparse : option exc)
  | CPredict (fitted : option exc) (a b : tms) (work sparse : option exc) (a' b' : tms) (knn : option exc).

  (** the object after a piece of approximate.py:1393-1526, with the exception that leaves it *)
  Definition outcome := (timed * result unit)%type.
  (** approximate.py:1407-1440 *)
  Definition do_fit (a b : tms) (work : option exc) (st : timed) : outcome :=
    match work with
    | Some e => (st, Raise e)
    | None => match times "fit" a b st with Ok st' => (st', Ok tt) | Raise e => (st, Raise e) end
    end.
  (** approximate.py:1459-1495 *)
  Definition do_transform (a b : tms) (work sparse : option exc) (st : timed) : outcome :=
    match work with
    | Some e => (st, Raise e)
    | None => match times "transform" a b st with
              | Raise e => (st, Raise e)
              | Ok st' => (st', match sparse with Some e => Raise e | None => Ok tt end)
              end
    end.
  (** approximate.py:1510-1526 *)
  Definition do_predict fitted (a b : tms) work sparse (a' b' : tms) (knn : option exc) (st : timed) : outcome :=
    match fitted with
    | Some e => (st, Raise e)
    | None =>
        match do_transform a b work sparse st with
        | (st1, Raise e) => (st1, Raise e)
        | (st1, Ok _) =>
            match knn with
            | Some e => (st1, Raise e)
            | None => match times "predict" a' b' st1 with Ok st2 => (st2, Ok tt) | Raise e => (st1, Raise e) end
            end
        end
    end.
  (** one call of a method (approximate.py:1393, 1442, 1497) *)
  Definition do_call (c : call) (st : timed) : outcome :=
    match c with
    | CFit a b work => do_fit a b work st
    | CTransform a b work sparse => do_transform a b work sparse st
    | CPredict fitted a b work sparse a' b' knn => do_predict fitted a b work sparse a' b' knn st
    end.
  (** a history of calls, the caller catching exceptions (approximate.py:1393-1526) *)
  Definition do_calls (h : list call) (st : timed) : timed := fold_left (fun st c => fst (do_call c st)) h st.
  (** a new object has none of the attributes (approximate.py:495-520) *)
  Definition fresh : timed := Timed None None None.
End Times.
Arguments tms : clear implicits. Arguments timing : clear implicits. Arguments timed : clear implicits. Arguments call : clear implicits.
