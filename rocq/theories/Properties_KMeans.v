(** Property C67: k-means++ seeding (exact arithmetic). *)
From Coq Require Import String.
From Coq Require Import ZArith List Arith Lia Bool Permutation Reals Lra.
From Verif Require Import Py Num NumT Arr Sort S_Approx M_Approx P_Approx P_KMeans.
Import ListNotations.
Local Open Scope nat_scope.

(** [d i j]: non-negative distances, [first] the first draw, [rs c] the uniform
    numbers in [0, 1) of round c.  The returned indices are a run of greedy
    k-means++ over the n objects. *)
Theorem C67_greedy :
  forall (n : nat) (d : nat -> nat -> R) (k first : nat) (rs : nat -> list R),
    (forall i j, 0 <= d i j)%R -> 1 <= k -> first < n ->
    (forall c, 1 <= c < k -> rs c <> [] /\ forall r, In r (rs c) -> (0 <= r < 1)%R) ->
    exists ind,
      kmeanspp xsum n k (fun c => map XFin (map (d c) (seq 0 n))) first (fun c => map XFin (rs c)) = Ok ind /\
      greedy_centres d n first rs k ind /\ (forall x, In x ind -> x < n).
Proof.
  intros n d k first rs Hd Hk Hf Hr.
  destruct (kmeanspp_spec d n Hd k first rs Hk Hf Hr) as (ind & E & T). exists ind. split; [exact E|]. split; [exact T|].
  now apply (km_trace_range d n first rs k).
Qed.

(** The centres are pairwise different if different objects have positive
    distance, no more centres are wanted than there are objects, and no uniform
    number is exactly 0. *)
Theorem C67_distinct :
  forall (n : nat) (d : nat -> nat -> R) (k first : nat) (rs : nat -> list R) ind,
    (forall i, d i i = 0)%R -> (forall i j, i <> j -> 0 < d i j)%R -> 1 <= k <= n -> first < n ->
    (forall c, 1 <= c < k -> rs c <> [] /\ forall r, In r (rs c) -> (0 < r < 1)%R) ->
    kmeanspp xsum n k (fun c => map XFin (map (d c) (seq 0 n))) first (fun c => map XFin (rs c)) = Ok ind ->
    NoDup ind /\ length ind = k.
Proof.
  intros n d k first rs ind H0 Hs Hk Hf Hr E.
  assert (Hd : forall i j, (0 <= d i j)%R).
  { intros i j. destruct (Nat.eq_dec i j) as [->|H]; [rewrite H0; lra|]. specialize (Hs i j H). lra. }
  destruct (kmeanspp_spec d n Hd k first rs) as (ind' & E' & T); [lia|exact Hf| |].
  - intros c Hc. destruct (Hr c Hc) as (A & B). split; [exact A|]. intros r Hr'. specialize (B r Hr'). unfold in_unit. lra.
  - unfold dl in E'. rewrite E in E'. injection E' as <-. split; [|apply T].
    apply (km_distinct d n Hd H0 Hs first rs k ind T); [lia|]. intros c r Hc Hr'. destruct (Hr c Hc) as (_ & B). specialize (B r Hr'). lra.
Qed.

(** What happens at the boundary: when every uniform number of a round is
    exactly 0, object 0 is chosen, whether or not it is a centre already. *)
Theorem C67_zero_draw :
  forall (n : nat) (d : nat -> nat -> R) (k first : nat) (rs : nat -> list R) ind c,
    (forall i j, 0 <= d i j)%R -> 1 <= k -> first < n ->
    (forall c, 1 <= c < k -> rs c <> [] /\ forall r, In r (rs c) -> (0 <= r < 1)%R) ->
    kmeanspp xsum n k (fun c => map XFin (map (d c) (seq 0 n))) first (fun c => map XFin (rs c)) = Ok ind ->
    1 <= c < k -> (forall r, In r (rs c) -> r = 0%R) -> nth c ind 0 = 0.
Proof.
  intros n d k first rs ind c Hd Hk Hf Hr E Hc Hz.
  destruct (kmeanspp_spec d n Hd k first rs Hk Hf Hr) as (ind' & E' & T). unfold dl in E'. rewrite E in E'. injection E' as <-.
  destruct T as (_ & _ & T). destruct (T c Hc) as (cands & F & Hin & _).
  destruct (Forall2_in _ _ _ _ F Hin) as (r & Hr' & Hx & [(_ & Hd')|(Hp & _)]); [exact Hd'|].
  rewrite (Hz r Hr') in Hp. lra.
Qed.
(** ... and then the seeding repeats a centre that is also the first one. *)
Theorem C67_zero_draw_repeats :
  forall (n : nat) (d : nat -> nat -> R) (rs : nat -> list R), 1 <= n -> (forall i j, 0 <= d i j)%R ->
    rs 1 = [0%R; 0%R] ->
    kmeanspp xsum n 2 (fun c => map XFin (map (d c) (seq 0 n))) 0 (fun c => map XFin (rs c)) = Ok [0; 0].
Proof.
  intros n d rs Hn Hd H1.
  destruct (C67_greedy n d 2 0 rs) as (ind & E & (Hl & H0 & _) & _); auto; try lia.
  - intros c Hc. replace c with 1 by lia. rewrite H1. split; [discriminate|]. intros r [<-|[<-|[]]]; lra.
  - rewrite E. f_equal. destruct ind as [|a [|b [|]]]; try discriminate Hl. cbn in H0. subst a. do 2 f_equal.
    change b with (nth 1 [0; b] 0).
    apply (C67_zero_draw n d 2 0 rs [0; b] 1 Hd); auto; try lia.
    + intros c Hc. replace c with 1 by lia. rewrite H1. split; [discriminate|]. intros r [<-|[<-|[]]]; lra.
    + rewrite H1. intros r [<-|[<-|[]]]; reflexivity.
Qed.

(** More centres than objects: some object is returned twice. *)
Theorem C67_too_many :
  forall (n : nat) (d : nat -> nat -> R) (k first : nat) (rs : nat -> list R) ind,
    (forall i j, 0 <= d i j)%R -> n < k -> first < n ->
    (forall c, 1 <= c < k -> rs c <> [] /\ forall r, In r (rs c) -> (0 <= r < 1)%R) ->
    kmeanspp xsum n k (fun c => map XFin (map (d c) (seq 0 n))) first (fun c => map XFin (rs c)) = Ok ind ->
    ~ NoDup ind.
Proof.
  intros n d k first rs ind Hd Hk Hf Hr E ND.
  destruct (C67_greedy n d k first rs) as (ind' & E' & (Hl & _) & R); auto; [lia|]. unfold dl in E'. rewrite E in E'. injection E' as <-.
  assert (I : incl ind (seq 0 n)) by (intros x Hx; apply in_seq; specialize (R x Hx); lia).
  pose proof (NoDup_incl_length ND I) as L. rewrite seq_length in L. lia.
Qed.

(** Errors: nothing to choose from, or nothing wanted. *)
Theorem C67_errors :
  forall (n k first : nat) dist rands,
    (k = 0 -> kmeanspp xsum n k dist first rands = Raise OverflowError) /\
    (k <> 0 -> n = 0 -> kmeanspp xsum n k dist first rands = Raise ValueError).
Proof.
  intros n k first dist rands. split.
  - intros ->. reflexivity.
  - intros Hk ->. unfold kmeanspp. destruct k; [congruence|reflexivity].
Qed.

(** three objects on a line at 0, 1, 5: starting at the first, the draws 1/10 and
    9/10 offer both others and the far one (position 2) wins *)
Example ex_C67 :
  let pos i := match i with 0 => 0 | 1 => 1 | _ => 5 end%R in
  let d i j := Rabs (pos i - pos j) in
  let rs (_ : nat) := [1/10; 9/10]%R in
  exists x, kmeanspp xsum 3 2 (fun c => map XFin (map (d c) (seq 0 3))) 0 (fun c => map XFin (rs c)) = Ok [0; x] /\ x = 2.
Proof.
  intros pos d rs.
  assert (Hd : forall i j, (0 <= d i j)%R) by (intros; apply Rabs_pos).
  assert (Hr : forall c, 1 <= c < 2 -> rs c <> [] /\ forall r, In r (rs c) -> (0 <= r < 1)%R).
  { intros c _. split; [discriminate|]. intros r [<-|[<-|[]]]; lra. }
  destruct (C67_greedy 3 d 2 0 rs Hd ltac:(lia) ltac:(lia) Hr) as (ind & E & (Hl & H0 & T) & R).
  destruct ind as [|a [|b [|]]]; try discriminate Hl. cbn in H0. subst a. exists b. split; [exact E|].
  destruct (T 1 ltac:(lia)) as (cands & F & Hin & Hmin).
  inversion F as [|r1 c1 l1 l2 D1 F2]; subst. inversion F2 as [|r2 c2 l3 l4 D2 F3]; subst. inversion F3; subst.
  cbn in Hin.
  assert (B0 : d 0 0 = 0%R) by (unfold d; cbn; rewrite Rminus_0_r; apply Rabs_R0).
  assert (B1 : d 0 1 = 1%R) by (unfold d; cbn; rewrite Rabs_left; lra).
  assert (B2 : d 0 2 = 5%R) by (unfold d; cbn; rewrite Rabs_left; lra).
  unfold drawn, potential, near in D1, D2. cbn in D1, D2. rewrite B0, B1, B2 in D1, D2.
  assert (C2 : c2 = 2).
  { destruct D2 as (L & [(A & _)|(_ & A & B)]); [lra|]. destruct c2 as [|[|[|]]]; [| |reflexivity|lia]; cbn in A, B; lra. }
  subst c2.
  assert (M := Hmin 2 ltac:(cbn; auto)). 
  destruct Hin as [<-|[<-|[]]]; [|reflexivity].
  assert (C1 : c1 = 1).
  { destruct D1 as (L & [(A & _)|(_ & A & B)]); [lra|]. destruct c1 as [|[|[|]]]; [| reflexivity| |lia]; cbn in A, B; lra. }
  subst c1. exfalso. unfold potential, near in M. cbn in M. rewrite B0, B1, B2 in M.
  assert (B3 : d 1 0 = 1%R) by (unfold d; cbn; rewrite Rabs_right; lra).
  assert (B4 : d 1 1 = 0%R) by (unfold d; cbn; replace (1 - 1)%R with 0%R by lra; apply Rabs_R0).
  assert (B5 : d 1 2 = 4%R) by (unfold d; cbn; rewrite Rabs_left; lra).
  assert (B6 : d 2 0 = 5%R) by (unfold d; cbn; rewrite Rabs_right; lra).
  assert (B7 : d 2 1 = 4%R) by (unfold d; cbn; rewrite Rabs_right; lra).
  assert (B8 : d 2 2 = 0%R) by (unfold d; cbn; replace (5 - 5)%R with 0%R by lra; apply Rabs_R0).
  rewrite B3, B4, B5, B6, B7, B8 in M. unfold Rmin in M. repeat destruct (Rle_dec _ _) in M; lra.
Qed.

Print Assumptions C67_greedy.
Print Assumptions C67_distinct.
Print Assumptions C67_zero_draw.
Print Assumptions C67_zero_draw_repeats.
Print Assumptions C67_too_many.
Print Assumptions C67_errors.
