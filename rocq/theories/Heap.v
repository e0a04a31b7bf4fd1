(** Arrays in memory: numpy variables are references.

    A heap is the list of all arrays that exist; a reference is a position in
    it.  [B = A] copies the reference, [A.copy()] and every numpy expression
    that computes an array append a new array, and [A[...] = v], [A -= x],
    [np.fill_diagonal(A, v)] replace the array at the reference.  A program
    either returns a value or raises an exception; what it wrote before stays
    written in both cases. *)
From Coq Require Import ZArith List Arith Lia Bool.
From Verif Require Import Py Num Arr.
Import ListNotations.

Definition heap (V : Type) := list (arr2 V).
Definition ref := nat.
Definition prog (V A : Type) := heap V -> result A * heap V.

Section Lang.
  Context {V : Type}.
  Definition p_ret {A} (a : A) : prog V A := fun h => (Ok a, h).
  (** a computation that touches no array *)
  Definition p_lift {A} (r : result A) : prog V A := fun h => (r, h).
  Definition p_bind {A B} (p : prog V A) (f : A -> prog V B) : prog V B := fun h =>
    match p h with
    | (Ok a, h') => f a h'
    | (Raise e, h') => (Raise e, h')
    end.
  (** the contents of an array *)
  Definition p_get (a : ref) : prog V (arr2 V) := fun h =>
    match nth_error h a with
    | Some A => (Ok A, h)
    | None => (Raise UnboundLocalError, h)
    end.
  Definition p_new (A : arr2 V) : prog V ref := fun h => (Ok (length h), h ++ [A]).
  Fixpoint upd_nth (h : heap V) (a : ref) (f : arr2 V -> arr2 V) : heap V :=
    match h, a with
    | [], _ => []
    | A :: h', 0 => f A :: h'
    | A :: h', S a' => A :: upd_nth h' a' f
    end.
  (** an operation in place *)
  Definition p_upd (a : ref) (f : arr2 V -> arr2 V) : prog V unit := fun h => (Ok tt, upd_nth h a f).
  (** [A.copy()] *)
  Definition p_copy (a : ref) : prog V ref := p_bind (p_get a) p_new.
  (** [for i in l: body(i)] *)
  Fixpoint p_for {T} (l : list T) (body : T -> prog V unit) : prog V unit :=
    match l with
    | [] => p_ret tt
    | i :: l' => p_bind (body i) (fun _ => p_for l' body)
    end.
  (** [[body(i) for i in l]] *)
  Fixpoint p_map {T B} (l : list T) (body : T -> prog V B) : prog V (list B) :=
    match l with
    | [] => p_ret []
    | i :: l' => p_bind (body i) (fun b => p_bind (p_map l' body) (fun bs => p_ret (b :: bs)))
    end.
  (** [A[i, j] = v]; an index outside the shape raises IndexError *)
  Definition p_set (a : ref) (i j : nat) (v : V) : prog V unit :=
    p_bind (p_get a) (fun A =>
      p_bind (p_lift (guard (negb ((i <? nrow A) && (j <? ncol A))) IndexError)) (fun _ =>
        p_upd a (fun A => set2 A i j v))).
  (** [for j, sample in enumerate(idx): A[sample, j] = v] *)
  Definition p_cells (a : ref) (idx : list nat) (v : V) : prog V unit :=
    p_for (seq 0 (length idx)) (fun j => p_set a (nth j idx 0) j v).
End Lang.

Declare Scope heap_scope.
Delimit Scope heap_scope with heap.
Notation "x <- p ; q" := (p_bind p (fun x => q))
  (at level 100, p at next level, q at level 200, right associativity) : heap_scope.
Notation "p ;; q" := (p_bind p (fun _ : unit => q))
  (at level 100, q at level 200, right associativity) : heap_scope.
