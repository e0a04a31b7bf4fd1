(** Specification for text files: decimal notation and the sparse row format. *)
From Coq Require Import String Ascii DecimalString DecimalZ.
From Coq Require Import ZArith List Arith Lia Bool.
Import ListNotations.

(** decimal notation of an integer *)
Definition show_Z (z : Z) : list ascii := list_ascii_of_string (NilZero.string_of_int (Z.to_int z)).
(** a row is a list of (column, value) pairs, written "column:value " each *)
Definition show_pair (p : Z * Z) : list ascii := (show_Z (fst p) ++ ":"%char :: show_Z (snd p))%list.
Definition show_row (ps : list (Z * Z)) : list ascii :=
  (concat (map (fun p => show_pair p ++ [" "%char]) ps) ++ ["010"%char])%list.
Definition show_rows (rows : list (list (Z * Z))) : list ascii := concat (map show_row rows).

(** the value given last for a column, 0 if there is none *)
Definition last_value (ps : list (Z * Z)) (c : Z) : Z :=
  fold_left (fun a p => if (fst p =? c)%Z then snd p else a) ps 0%Z.

(** a file in the format of /proc/meminfo: lines "name: value kB" with at least one
    blank between the colon and the value *)
Definition mem_entry := (list ascii * (nat * Z))%type.
Definition show_entry (e : mem_entry) : list ascii :=
  (fst e ++ ":"%char :: repeat " "%char (S (fst (snd e))) ++ show_Z (snd (snd e)) ++ [" "; "k"; "B"; "010"]%char)%list.
Definition show_meminfo (es : list mem_entry) : list ascii := concat (map show_entry es).
(** the number in line i, counted from 0 *)
Definition mem_value (es : list mem_entry) (i : nat) : Z := snd (snd (nth i es ([], (0, 0%Z)))).
(** names contain letters, digits, underscores and brackets only; what matters
    here is that they contain no white space *)
Definition blank (c : ascii) : bool :=
  let n := nat_of_ascii c in ((9 <=? n) && (n <=? 13)) || ((28 <=? n) && (n <=? 32)).
Definition mem_names (es : list mem_entry) : Prop := forall e, In e es -> forallb (fun c => negb (blank c)) (fst e) = true.

(** the same text with other line ends: [e] in place of every line feed (LF) *)
Definition with_line_ends (e s : list ascii) : list ascii :=
  flat_map (fun c => if (c =? "010")%char then e else [c]) s.
