(** The object Hubness over several calls of fit_transform (hubness.py:444-734):
    its attributes and its generator of random numbers.

    The statements of fit_transform are followed in order, so that the model
    says what a call that raises leaves behind.  scipy's skew and truncnorm
    are functions [skew] and [trunc] of the occurrences that do not raise.
    The public parameters can be assigned to between calls; k is at least 1. *)
From Coq Require Import String.
From Coq Require Import ZArith List Arith Lia Bool Permutation.
From Verif Require Import Py Num Arr Sort Conc M_Hubness M_KNN M_HubnessClass M_Rng.
Import ListNotations.
Local Open Scope py_scope.

Section Life.
  Context {V : Type} {N : Num V}.
  Variable rdist : nat -> (nat -> V) -> (nat -> V) -> V.
  Variables (vsum : list V -> V) (vpow : V -> V -> V).
  Variables (skew trunc : list nat -> V).
  Variable argpart : list V -> list nat -> list nat.
  Variable G : Type.
  Variable perm : nat -> G -> list nat * G.

  (** public attributes set by the constructor (hubness.py:449-458); batch_size is in kwargs (489) *)
  Record hpar := HPar { q_metric : string; q_k : nat; q_size : V; q_bs : Z; q_jobs : Z;
                        q_shuffle : bool; q_nn : bool; q_occ : bool }.
  (** the object: parameters, self.random_state (None: the global generator, 456), and
      the attributes fit_transform sets: k_neighbors_ (705), k_occurrence_ (709), the
      five indices of hubness.py:711-723, and the five attributes of 725-733 *)
  Record hobj := HObj { h_par : hpar; h_own : option G;
                        h_nn : option (list (list nat)); h_occ : option (list nat);
                        h_dist : option (V * V * V * V * V);
                        h_hub : option (list nat * V * list nat * V * V) }.

  (** hubness.py:673-703: the numbers of rows and of indexed objects, and the neighbours *)
  Inductive neighbours (p : hpar) (rps : option (nat -> list nat)) (has_self : bool) :
      @hub_input V -> option (arr2 V) -> result (nat * nat * list (list nat)) -> Prop :=
  | nb_pre_y X Y : q_metric p = "precomputed"%string -> neighbours p rps has_self X (Some Y) (Raise ValueError)
  | nb_pre_dense D : q_metric p = "precomputed"%string ->
      neighbours p rps has_self (InDense D) None
        (let s := if (nrow D =? ncol D) && has_self then 1 else 0 in
         let* nn := k_neighbors_precomputed argpart D (zarange 0 (Z.of_nat (s + q_k p))) s (s + q_k p) rps in
         Ok (nrow D, ncol D, nn))
  | nb_pre_sparse m rows : q_metric p = "precomputed"%string ->
      neighbours p rps has_self (InSparse m rows) None
        (let* nn := k_neighbors_sparse argpart rows (q_k p) rps in Ok (length rows, m, nn))
  | nb_features X Y : q_metric p <> "precomputed"%string -> ncol X <> ncol Y ->
      neighbours p rps has_self (InDense X) (Some Y) (Raise AssertionError)
  | nb_vec X Y r : q_metric p <> "precomputed"%string ->
      (match Y with None => True | Some Y => ncol X = ncol Y end) ->
      (let s := match Y with None => 1 | Some _ => 0 end in
       let Z_ := match Y with None => X | Some Y => Y end in
       k_neighbors rdist argpart X Z_ (q_metric p) (q_k p) (zarange 0 (Z.of_nat (s + q_k p))) s (s + q_k p) (q_bs p) (q_jobs p) r) ->
      neighbours p rps has_self (InDense X) Y
        (let* nn := r in Ok (nrow X, nrow (match Y with None => X | Some Y => Y end), nn)).

  (** hubness.py:704-734 with the given neighbours: the attributes are assigned one after
      the other; [antihubs.size / k_occurrence.size] (662) is the only statement that can raise *)
  Definition assign (o : hobj) (n_test n_train : nat) (nn : list (list nat)) : hobj * result unit :=
    let p := h_par o in
    let occ := bincount (concat nn) n_train in
    let occZ := map Z.of_nat occ in
    let limiting := if (10000 <? Z.of_nat (length occ))%Z then "space"%string else "time"%string in
    let o1 := HObj p (h_own o) (if q_nn p then Some nn else h_nn o) (if q_occ p then Some occ else h_occ o)
                   (Some (skew occ, trunc occ, gini_index limiting occZ, hood_index vsum occZ,
                          atkinson_index vsum vpow (ndiv (nofZ 3) (nofZ 4)) occZ)) (h_hub o) in
    if length occ =? 0 then (o1, Raise ZeroDivisionError)
    else (HObj p (h_own o) (h_nn o1) (h_occ o1) (h_dist o1)
               (Some (antihubs occ, antihub_occurrence occ, hubs (q_k p) occ (q_size p),
                      hub_occurrence (q_k p) occ n_test (q_size p),
                      ndiv (nofnat (max_list occ)) (nofnat n_test))), Ok tt).

  (** the lengths of the permutations a complete search draws (hubness.py:544, 595) *)
  Definition draw_lens (p : hpar) (X : @hub_input V) : list nat :=
    if q_shuffle p && String.eqb (q_metric p) "precomputed" then
      match X with InDense D => repeat (ncol D) (nrow D) | InSparse _ rows => map (@length _) rows end
    else [].
  (** a generator after permutations of these lengths (hubness.py:544, 595) *)
  Definition advance (lens : list nat) (g : G) : G := fold_left (fun g m => snd (perm m g)) lens g.
  (** which generator is used: the global one for dense distances (hubness.py:544), that of the object
      for sparse ones (595); the first component is the global one *)
  Definition advanced (X : @hub_input V) (lens : list nat) (g : G) (own : option G) : G * option G :=
    match X, own with
    | InSparse _ _, Some s => (g, Some (advance lens s))
    | _, _ => (advance lens g, own)
    end.
  (** self.random_state afterwards (hubness.py:456, 595) *)
  Definition with_own (o : hobj) (s : option G) : hobj := HObj (h_par o) s (h_nn o) (h_occ o) (h_dist o) (h_hub o).
  (** the permutations of a call (hubness.py:544, 595) *)
  Definition perms_of (o : hobj) (X : @hub_input V) (g : G) : option (nat -> list nat) :=
    if q_shuffle (h_par o) then Some (class_perms G perm X (h_own o) g) else None.

  (** fit_transform, assignment of new parameters, and use of the global generator by
      anybody else (hubness.py:444-734) *)
  Inductive hcall := HFit (X : @hub_input V) (Y : option (arr2 V)) (has_self : bool) | HSet (p : hpar) | HGlobal (g : G).
  (** one step; a search that raises may have drawn some permutations (hubness.py:671-734) *)
  Inductive hstep : G * hobj -> hcall -> G * hobj -> result unit -> Prop :=
  | hs_search g o X Y hs e j :
      neighbours (h_par o) (perms_of o X g) hs X Y (Raise e) ->
      hstep (g, o) (HFit X Y hs)
        (fst (advanced X (firstn j (draw_lens (h_par o) X)) g (h_own o)),
         with_own o (snd (advanced X (firstn j (draw_lens (h_par o) X)) g (h_own o)))) (Raise e)
  | hs_done g o X Y hs n_test n_train nn :
      neighbours (h_par o) (perms_of o X g) hs X Y (Ok (n_test, n_train, nn)) ->
      hstep (g, o) (HFit X Y hs)
        (fst (advanced X (draw_lens (h_par o) X) g (h_own o)),
         fst (assign (with_own o (snd (advanced X (draw_lens (h_par o) X) g (h_own o)))) n_test n_train nn))
        (snd (assign o n_test n_train nn))
  | hs_set g o p : hstep (g, o) (HSet p) (g, HObj p (h_own o) (h_nn o) (h_occ o) (h_dist o) (h_hub o)) (Ok tt)
  | hs_global g o g' : hstep (g, o) (HGlobal g') (g', o) (Ok tt).
  (** any number of steps, with how they ended (hubness.py:444-734) *)
  Inductive hrun (st : G * hobj) : list (hcall * hpar * result unit) -> G * hobj -> Prop :=
  | hr_nil : hrun st [] st
  | hr_snoc l c r st1 st2 : hrun st l st1 -> hstep st1 c st2 r -> hrun st (l ++ [(c, h_par (snd st1), r)]) st2.
End Life.
