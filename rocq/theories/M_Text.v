(** Model of the functions of /repo/hub_toolbox/io.py that read text files:
    load_dexter (22-62), FreeMemLinux (203-282), and matrix_split (133-165) in
    floating point with the memory it is told about.
    A text is a list of ASCII characters. *)
From Coq Require Import String Ascii.
From Coq Require Import ZArith List Arith Lia Bool.
From Flocq Require Import IEEE754.BinarySingleNaN.
From Verif Require Import Py Num Arr M_IO M_Dist.
Import ListNotations.
Local Open Scope py_scope.

(** the content of a text file (io.py:49-50, 212-213) *)
Definition text := list ascii.
(** a Python string literal, as in io.py:226-240 *)
Definition txt (s : string) : text := list_ascii_of_string s.

(** str.isspace for ASCII: tab, line feed, vertical tab, form feed, carriage
    return, the four separators 28-31, blank (io.py:53, 215) *)
Definition is_space (c : ascii) : bool :=
  let n := nat_of_ascii c in ((9 <=? n) && (n <=? 13)) || ((28 <=? n) && (n <=? 32)).

(** file.readlines() (io.py:50, 213) with universal newlines; the line end, which
    [split] would ignore, is left out.  [cur]: the line read so far *)
Fixpoint read_lines (s cur : text) : list text :=
  match s with
  | [] => match cur with [] => [] | _ => [cur] end
  | c :: s' =>
      if (c =? "010")%char then cur :: read_lines s' []
      else if (c =? "013")%char then
        match s' with
        | c' :: s'' => if (c' =? "010")%char then cur :: read_lines s'' [] else cur :: read_lines s' []
        | [] => [cur]
        end
      else read_lines s' (cur ++ [c])
  end.
(** file.readlines() of a text (io.py:50, 213) *)
Definition readlines (s : text) : list text := read_lines s [].

(** str.split() (io.py:53, 215-221); [strip()] before it makes no difference *)
Fixpoint split_space (s cur : text) : list text :=
  match s with
  | [] => match cur with [] => [] | _ => [cur] end
  | c :: s' =>
      if is_space c then match cur with [] => split_space s' [] | _ => cur :: split_space s' [] end
      else split_space s' (cur ++ [c])
  end.
(** str.split() (io.py:53, 215-221) *)
Definition words (s : text) : list text := split_space s [].

(** str.split(sep) for one character (io.py:55) *)
Fixpoint split_char (sep : ascii) (s cur : text) : list text :=
  match s with
  | [] => [cur]
  | c :: s' => if (c =? sep)%char then cur :: split_char sep s' [] else split_char sep s' (cur ++ [c])
  end.

(** int(str) (io.py:56, 215-221): a sign, then digits, single underscores between
    digits are allowed.  Called only for texts without white space; the limit of
    4300 digits of recent Python versions is left out. *)
Definition digit (c : ascii) : option Z :=
  let n := nat_of_ascii c in if (48 <=? n) && (n <=? 57) then Some (Z.of_nat (n - 48)) else None.
(** int(str), digits (io.py:56, 215-221); [prev]: the character before is a digit *)
Fixpoint digits (s : text) (acc : Z) (prev : bool) : option Z :=
  match s with
  | [] => if prev then Some acc else None
  | c :: s' =>
      match digit c with
      | Some d => digits s' (10 * acc + d)%Z true
      | None => if ((c =? "_")%char && prev)%bool then digits s' acc false else None
      end
  end.
(** int(str) (io.py:56, 215-221) *)
Definition py_int (s : text) : result Z :=
  let r := match s with
           | c :: s' => if (c =? "-")%char then option_map Z.opp (digits s' 0 false)
                        else if (c =? "+")%char then digits s' 0 false else digits s 0 false
           | [] => None
           end in
  match r with Some z => Ok z | None => Raise ValueError end.

(** ** load_dexter *)
Section Dexter.
  Context {V : Type} {N : Num V}.
  Variable vsum : list V -> V.

  (** [float(z)] raises if z is not within the range of float64 (io.py:56) *)
  Definition too_large (z : Z) : bool := (2 ^ 1024 - 2 ^ 970 <=? Z.abs z)%Z.
  (** the position an index z means in an axis of length m; negative indices count
      from the end (io.py:56) *)
  Definition py_index (m : nat) (z : Z) : option nat :=
    if ((0 <=? z) && (z <? Z.of_nat m))%Z then Some (Z.to_nat z)
    else if ((- Z.of_nat m <=? z) && (z <? 0))%Z then Some (Z.to_nat (z + Z.of_nat m)) else None.

  (** io.py:55-56: [col, val = word.split(':'); vectors[row][int(col)-1] = int(val)];
      Python evaluates int(val) before vectors[row] and int(col) *)
  Definition dexter_word (row : nat) (X : arr2 V) (word : text) : result (arr2 V) :=
    match split_char ":" word [] with
    | [col; val] =>
        let* v := py_int val in
        guard (nrow X <=? row) IndexError ;;
        let* c := py_int col in
        match py_index (ncol X) (c - 1) with
        | Some j =>
            guard (too_large v) OverflowError ;;
            Ok (Arr2 (nrow X) (ncol X) (fun i k => if (i =? row) && (k =? j) then nofZ v else at2 X i k))
        | None => Raise IndexError
        end
    | _ => Raise ValueError
    end.
  (** io.py:53-56: the words of a line *)
  Fixpoint dexter_line (row : nat) (ws : list text) (X : arr2 V) : result (arr2 V) :=
    match ws with
    | [] => Ok X
    | w :: ws' => let* X' := dexter_word row X w in dexter_line row ws' X'
    end.
  (** io.py:51-57: the lines *)
  Fixpoint dexter_lines (row : nat) (ls : list text) (X : arr2 V) : result (arr2 V) :=
    match ls with
    | [] => Ok X
    | l :: ls' => let* X' := dexter_line row (words l) X in dexter_lines (row + 1) ls' X'
    end.
  (** io.py:22-62 load_dexter for a data file with content [data]; [classes] is
      what np.loadtxt (41) reads from the other file *)
  Definition load_dexter {L} (classes : L) (data : text) : result (arr2 V * L * arr2 V) :=
    let* X := dexter_lines 0 (readlines data) (full2 300 20000 n0) in
    Ok (cosine_distance vsum X, classes, X).
End Dexter.

(** ** FreeMemLinux *)
(** the attributes set in io.py:215-222 *)
Record meminfo := MemInfo { mi_tot : Z; mi_free : Z; mi_buff : Z; mi_cached : Z; mi_shared : Z; mi_swapt : Z; mi_swapf : Z; mi_swapu : Z }.

(** [int(lines[i].split()[1])] (io.py:215-221) *)
Definition line_number (lines : list text) (i : nat) : result Z :=
  match nth_error lines i with
  | None => Raise IndexError
  | Some l => match nth_error (words l) 1 with None => Raise IndexError | Some w => py_int w end
  end.
(** io.py:212-222: the first part of the constructor, for a given content of
    /proc/meminfo *)
Definition read_meminfo (s : text) : result meminfo :=
  let lines := readlines s in
  let* tot := line_number lines 0 in
  let* free := line_number lines 1 in
  let* buff := line_number lines 2 in
  let* cached := line_number lines 3 in
  let* shared := line_number lines 20 in
  let* swapt := line_number lines 14 in
  let* swapf := line_number lines 15 in
  Ok (MemInfo tot free buff cached shared swapt swapf (swapt - swapf)).

Section FreeMem.
  Context {V : Type} {N : Num V}.
  (** [Exception] (io.py:240) is only ever tested for its class; AssertionError
      stands for it.  For 'kB' the factor is the integer 1, so results are integers;
      they are numbers of V here. *)
  Definition mem_factor (unit_ : string) (tot : Z) : result V :=
    if String.eqb unit_ "kB" then Ok n1
    else if String.eqb unit_ "k" then Ok (nofZ 1024)
    else if String.eqb unit_ "MB" then Ok (ndiv n1 (nofZ 1024))
    else if String.eqb unit_ "GB" then Ok (ndiv (ndiv n1 (nofZ 1024)) (nofZ 1024))
    else if String.eqb unit_ "%" then
      guard (tot =? 0)%Z ZeroDivisionError ;; Ok (nmul (ndiv n1 (nofZ tot)) (nofZ 100))
    else Raise AssertionError.
  (** an object of class FreeMemLinux: the numbers and the factor (io.py:210-225) *)
  Record free_mem := FreeMem { fm_info : meminfo; fm_convert : V }.
  (** io.py:210-225 FreeMemLinux(unit) *)
  Definition FreeMemLinux (s : text) (unit_ : string) : result free_mem :=
    let* m := read_meminfo s in
    let* f := mem_factor unit_ (mi_tot m) in
    Ok (FreeMem m f).
  (** io.py:242-244 *)
  Definition fm_total (o : free_mem) : V := nmul (fm_convert o) (nofZ (mi_tot (fm_info o))).
  (** io.py:246-248 *)
  Definition fm_used (o : free_mem) : V := nmul (fm_convert o) (nofZ (mi_tot (fm_info o) - mi_free (fm_info o))).
  (** io.py:250-253 *)
  Definition fm_used_real (o : free_mem) : V :=
    nmul (fm_convert o) (nofZ (mi_tot (fm_info o) - mi_free (fm_info o) - mi_buff (fm_info o) - mi_cached (fm_info o))).
  (** io.py:255-257 *)
  Definition fm_shared (o : free_mem) : V := nmul (fm_convert o) (nofZ (mi_tot (fm_info o) - mi_free (fm_info o))).
  (** io.py:259-261 *)
  Definition fm_buffers (o : free_mem) : V := nmul (fm_convert o) (nofZ (mi_buff (fm_info o))).
  (** io.py:263-265 *)
  Definition fm_cached (o : free_mem) : V := nmul (fm_convert o) (nofZ (mi_cached (fm_info o))).
  (** io.py:267-270 *)
  Definition fm_user_free (o : free_mem) : V :=
    nmul (fm_convert o) (nofZ (mi_free (fm_info o) + mi_buff (fm_info o) + mi_cached (fm_info o))).
  (** io.py:272-274 *)
  Definition fm_swap (o : free_mem) : V := nmul (fm_convert o) (nofZ (mi_swapt (fm_info o))).
  (** io.py:276-278 *)
  Definition fm_swap_free (o : free_mem) : V := nmul (fm_convert o) (nofZ (mi_swapf (fm_info o))).
  (** io.py:280-282 *)
  Definition fm_swap_used (o : free_mem) : V := nmul (fm_convert o) (nofZ (mi_swapu (fm_info o))).
End FreeMem.
Arguments free_mem V : clear implicits.

(** ** matrix_split in floating point *)
(** io.py:162 int(x): towards zero *)
Definition f64_int (x : f64) : Z := Btrunc x.
(** io.py:164 [np.ceil] then int *)
Definition f64_ceil (x : f64) : Z := - Btrunc (Bnearbyint mode_DN (nopp x)).
(** io.py:133-165 matrix_split; the arguments are natural numbers.  [a / b] of two
    integers is the correctly rounded quotient, as here for integers up to 2^53. *)
Definition matrix_split_f64 (meminfo : text) (rows cols elem_size nr_matrices : nat) : result (Z * Z) :=
  let* fm := FreeMemLinux (V:=f64) meminfo "k" in
  let free := fm_user_free fm in
  guard ((cols =? 0) || (elem_size =? 0)) ZeroDivisionError ;;
  let max_rows := f64_int (ndiv (ndiv free (nofnat cols)) (nofnat elem_size)) in
  guard (nr_matrices =? 0) ZeroDivisionError ;;
  let nr_rows := f64_int (ndiv (nofZ max_rows) (nofnat nr_matrices)) in
  guard (nr_rows =? 0)%Z ZeroDivisionError ;;
  let nr_batches := f64_ceil (ndiv (nofnat rows) (nofZ nr_rows)) in
  Ok (nr_batches, nr_rows).
