(** Specifications for approximate hubness reduction, independent of the code. *)
From Coq Require Import ZArith List Arith Lia Bool Reals Lra.
From Verif Require Import Py Num NumT Arr.
Import ListNotations.
Local Open Scope nat_scope.

(** [d c x]: distance between the objects c and x.  Distance of x to the closest
    of the centres. *)
Definition near (d : nat -> nat -> R) (centres : list nat) (x : nat) : R :=
  match centres with
  | [] => 0%R
  | c :: cs => fold_left (fun m c => Rmin m (d c x)) cs (d c x)
  end.
(** the k-means potential of a set of centres *)
Definition potential (d : nat -> nat -> R) (n : nat) (centres : list nat) : R :=
  rsum (map (near d centres) (seq 0 n)).
(** [x] is the object drawn with probability proportional to its distance to the
    closest centre when the uniform random number is [r]: the cumulated
    distances pass [r * potential] at [x] *)
Definition drawn (d : nat -> nat -> R) (n : nat) (centres : list nat) (r : R) (x : nat) : Prop :=
  let w := map (near d centres) (seq 0 n) in
  let v := (r * potential d n centres)%R in
  x < n /\ ((v = 0%R /\ x = 0) \/ (0 < v /\ rsum (firstn x w) < v <= rsum (firstn (S x) w))%R).

(** [ind] is a run of greedy k-means++: it starts with [first]; for every later
    position c there is one candidate per random number [rs c], drawn with
    respect to the centres chosen before, and the chosen one leaves the smallest
    potential among them. *)
Definition greedy_centres (d : nat -> nat -> R) (n first : nat) (rs : nat -> list R) (k : nat)
    (ind : list nat) : Prop :=
  length ind = k /\ nth 0 ind 0 = first /\
  forall c, 1 <= c < k -> exists cands,
    Forall2 (drawn d n (firstn c ind)) (rs c) cands /\ In (nth c ind 0) cands /\
    forall x, In x cands ->
      Rle (potential d n (firstn c ind ++ [nth c ind 0])) (potential d n (firstn c ind ++ [x])).

(** Mutual proximity to vantage points: [dx l] is the distance of the query to
    the vantage point l, [dj l] that of the vantage point j to l; s vantage
    points.  Number of vantage points, other than j, farther from the query and
    from j than these two are from each other. *)
Definition farther_vantage {V} {N : Num V} (dx dj : nat -> V) (s j : nat) : nat :=
  length (filter (fun l => negb (l =? j) && (nlt (dx j) (dx l) && nlt (dx j) (dj l))) (seq 0 s)).

(** data that sklearn accepts: at least one row and one column, all finite *)
Definition clean {V} {N : Num V} (X : arr2 V) : Prop :=
  0 < nrow X /\ 0 < ncol X /\ forall i f, i < nrow X -> f < ncol X -> nisfin (at2 X i f) = true.

(** mean and (population) standard deviation of real numbers *)
Definition rmean (l : list R) : R := (rsum l / INR (length l))%R.
Definition rstd (l : list R) : R := sqrt (rmean (map (fun x => (x - rmean l) * (x - rmean l))%R l)).
(** all indices below s but j *)
Definition but (j s : nat) : list nat := filter (fun l => negb (l =? j)) (seq 0 s).
(** a survival function of the normal distribution: only these facts are used *)
Definition sf_contract (sf : xr -> xr -> xr -> xr) : Prop :=
  (forall x m s, (0 < s)%R -> exists p, sf (XFin x) (XFin m) (XFin s) = XFin p /\ (0 <= p <= 1)%R) /\
  (forall x m, sf (XFin x) (XFin m) (XFin 0) = XNaN).

(** [v] has rank k in [l]: fewer than k values are below it, at least k are not
    above it (k = 1 is the minimum); determines v up to numerical equality *)
Definition has_rank {V} {N : Num V} (l : list V) (k : nat) (v : V) : Prop :=
  length (filter (fun x => nlt x v) l) < k <= length (filter (fun x => nle x v) l).
