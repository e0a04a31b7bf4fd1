(** Model of /repo/hub_toolbox/local_scaling.py:174-311 for float32 input.

    numpy keeps the type of an array operation with Python integers, and
    converts to float64 when one operand is a float64 array.  Without a pool all
    arrays are made from the input ([np.partition], [np.zeros_like]) and are
    float32; with a pool the radii and the result are float64 buffers. *)
From Coq Require Import String.
From Coq Require Import ZArith List Arith Lia Bool.
From Flocq Require Import Core BinarySingleNaN.
From Verif Require Import Py Num NumF32 Arr Sort Conc S_Neighbors M_IO M_Hubness M_SNN M_LS.
Import ListNotations.
Local Open Scope py_scope.

(** a float32 in a float64 operation or buffer, exact
    (local_scaling.py:159, 167-169) *)
Definition f64_of32 (x : f32) : f64 :=
  match x with
  | B754_nan => B754_nan
  | B754_infinity s => B754_infinity s
  | B754_zero s => B754_zero s
  | B754_finite s m e _ => binary_normalize 53 1024 prec53 emax1024 mode_NE (cond_Zopp s (Zpos m)) e s
  end.

(** the returned array has one of two element types (local_scaling.py:276, 294) *)
Inductive ndarray : Type := A32 (a : arr2 f32) | A64 (a : arr2 f64).

Section LS32.
  (** np.exp on float32 and on float64 arrays; np.partition *)
  Variables (exp32 : f32 -> f32) (exp64 : f64 -> f64).
  Variable part : list f32 -> list nat -> list f32.

  (** local_scaling.py:167-169 in a worker: the square is float32, the radii are
      float64, so the quotient and everything after it is float64 *)
  Definition ls_val_mixed (metric : string) (d : f32) (ri rj : f64) : f64 :=
    let e := exp64 (ndiv (f64_of32 (nmul (nofZ (-1)) (nmul d d))) (nmul ri rj)) in
    if is_sim metric then e else nsub n1 e.

  (** local_scaling.py:162-172 as writes to the float64 buffer *)
  Definition ls_task_mixed (metric : string) (dist : arr2 f32) (n : nat) (r : nat -> f64) (i : nat) :
      list (cell * f64) :=
    let tmp j := if j =? i then ls_self_tmp metric else ls_val_mixed metric (at2 dist i j) (r i) (r j) in
    map (fun j => ((i, j), tmp j)) (seq i (n - i)) ++ map (fun j => ((j, i), tmp j)) (seq i (n - i)).

  (** local_scaling.py:174-311 on a float32 array.  The temporary row of line
      279 is float64, but its values come from float32 and go to float32. *)
  Inductive local_scaling32 (D : arr2 f32) (k : Z) (metric : string) (test : option (list nat))
      (cpu : nat) (n_jobs : Z) : result ndarray -> Prop :=
  | l32_one : (if (n_jobs =? -1)%Z then Z.of_nat cpu else n_jobs) = 1%Z ->
      local_scaling32 D k metric test cpu n_jobs
        (let* L := local_scaling_serial exp32 part D k metric test in Ok (A32 L))
  | l32_none : ((if (n_jobs =? -1)%Z then Z.of_nat cpu else n_jobs) < 1)%Z ->
      local_scaling32 D k metric test cpu n_jobs
        (let* _ := ls_radii part D k metric test in Raise UnboundLocalError)
  | l32_fail e : (1 < (if (n_jobs =? -1)%Z then Z.of_nat cpu else n_jobs))%Z ->
      ls_radii part D k metric test = Raise e -> local_scaling32 D k metric test cpu n_jobs (Raise e)
  | l32_pool rs r data : (1 < (if (n_jobs =? -1)%Z then Z.of_nat cpu else n_jobs))%Z ->
      ls_radii part D k metric test = Ok rs ->
      pool_run Nat.eqb (fun _ => n0) (map (fun i => [(i, f64_of32 (nth i rs nnan))]) (seq 0 (nrow D))) r ->
      pool_run celleq (fun _ => n0)
        (map (ls_task_mixed metric (fill_diagonal D (ls_exclude metric)) (nrow D) r) (seq 0 (nrow D))) data ->
      local_scaling32 D k metric test cpu n_jobs
        (Ok (A64 (fill_diagonal (Arr2 (nrow D) (nrow D) (fun i j => data (i, j))) (ls_self metric)))).
End LS32.
