(** Specification vocabulary for local scaling and NICDM. *)
From Coq Require Import String.
From Coq Require Import ZArith Reals List Arith Lia Bool Permutation.
From Verif Require Import Py Num Arr S_Neighbors.
Import ListNotations.

(** [v] is the k-th smallest value of [l] (k = 1 is the minimum), respectively
    the k-th largest; for lists without NaN *)
Definition kth_smallest {V} {N : Num V} (l : list V) (k : nat) (v : V) : Prop :=
  In v l /\ length (filter (fun x => nlt x v) l) < k <= length (filter (fun x => nle x v) l).
Definition kth_largest {V} {N : Num V} (l : list V) (k : nat) (v : V) : Prop :=
  In v l /\ length (filter (fun x => nlt v x) l) < k <= length (filter (fun x => nle v x) l).

(** entries of row [i] towards the points of [cols] other than [i] itself *)
Definition others {V} (D : arr2 V) (cols : list nat) (i : nat) : list V :=
  map (at2 D i) (filter (fun x => negb (x =? i)) cols).

(** [s] consists of k smallest entries of [l] *)
Definition k_smallest {V} {N : Num V} (l : list V) (k : nat) (s : list V) : Prop :=
  length s = k /\ exists rest, Permutation l (s ++ rest) /\
    forall x y, In x s -> In y rest -> nlt y x = false.

(** same value, with NaN equal to NaN and -0 equal to +0 (np.array_equal with equal_nan) *)
Definition same {V} {N : Num V} (x y : V) : bool := neq x y || (nisnan x && nisnan y).

(** real entries *)
Definition real_at (D : arr2 xr) (i j : nat) : R :=
  match at2 D i j with XFin r => r | _ => 0%R end.

(** points that serve as neighbours: all of 0..n-1 that are not held out *)
Definition training (n : nat) (test : option (list nat)) : list nat :=
  match test with
  | None => seq 0 n
  | Some t => filter (fun x => negb (existsb (Nat.eqb x) t)) (seq 0 n)
  end.

(** two calls agree: same exception, or same shape and same values *)
Definition agree {V} {N : Num V} (x y : result (arr2 V)) : Prop :=
  match x, y with
  | Ok A, Ok B => nrow A = nrow B /\ ncol A = ncol B /\
      forall i j, i < nrow A -> j < ncol A -> same (at2 A i j) (at2 B i j) = true
  | Raise e, Raise e' => e = e'
  | _, _ => False
  end.

(** number of worker processes for the argument n_jobs: -1 means all cores *)
Definition workers (cpu : nat) (n_jobs : Z) : Z := if (n_jobs =? -1)%Z then Z.of_nat cpu else n_jobs.

(** Sample variants: column [j] of the n x s matrix stands for the object
    [train_j].  Values of row [i] towards the sample objects other than [i]. *)
Definition sample_others {V} (D : arr2 V) (train : list nat) (i : nat) : list V :=
  map (at2 D i) (filter (fun j => negb (nth j train 0 =? i)) (seq 0 (length train))).
