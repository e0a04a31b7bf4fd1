(** Model of dis_sim_local for vectors with an integer dtype
    (/repo/hub_toolbox/centering.py:345-449).  Integers are unbounded here,
    int64 in numpy.  [X] and [Y] both have an integer dtype. *)
From Coq Require Import ZArith List Arith Lia Bool.
From Verif Require Import Py Num Arr Sort Conc M_IO M_Hubness M_SNN M_LS M_Dist M_Centering.
Import ListNotations.
Local Open Scope py_scope.

Section DSLInt.
  Context {V : Type} {N : Num V}.
  Variable vsum : list V -> V.
  Variable argpart : list V -> list nat -> list nat.
  (** conversion of a float to an integer when it is assigned to an element of
      an integer array *)
  Variable vtrunc : V -> Z.

  (** the same vectors as floats; sklearn's euclidean_distances converts its
      input to float (centering.py:393, 400), so does [mean] (centering.py:417, 439) *)
  Definition as_float (X : arr2 Z) : arr2 V := Arr2 (nrow X) (ncol X) (fun i f => nofZ (at2 X i f)).

  (** centering.py:418-420, 440-442 on integers, [c_k_X] being an integer array
      because of [np.zeros_like(X)] (414, 436) *)
  Definition dsl_sq_int (X : arr2 Z) (c : nat -> nat -> V) (i : nat) : Z :=
    fold_right Z.add 0%Z (map (fun f => let d := (at2 X i f - vtrunc (c i f))%Z in (d * d)%Z) (seq 0 (ncol X))).

  (** centering.py:345-449.  With worker processes the centroids are floats
      (404-405) and [X -= c_k_X] (418) raises TypeError. *)
  Inductive dis_sim_local_int (X : arr2 Z) (k : Z) (n_jobs : Z) : option (arr2 Z) -> result (arr2 V) -> Prop :=
  | dsi_dim Y : ncol X <> ncol Y -> dis_sim_local_int X k n_jobs (Some Y) (Raise ValueError)
  | dsi_bad Y e : (match Y with None => True | Some Y => ncol X = ncol Y end) ->
      (let Y := match Y with None => X | Some Y => Y end in
       let* _ := euclidean_distances_sq vsum (as_float Y) (as_float Y) in
       euclidean_distances_sq vsum (as_float X) (as_float Y)) = Raise e ->
      dis_sim_local_int X k n_jobs Y (Raise e)
  | dsi_self D0 c :
      euclidean_distances_sq vsum (as_float X) (as_float X) = Ok D0 ->
      dsl_centroids vsum argpart (fill_diagonal D0 ninf) (as_float X) k n_jobs c ->
      dis_sim_local_int X k n_jobs None
        (let* c := c in
         guard (1 <? n_jobs)%Z TypeError ;;
         let D := fill_diagonal D0 ninf in
         let s i := nofZ (dsl_sq_int X c i) in
         Ok (fill_diagonal (Arr2 (nrow D) (ncol D)
               (fun i j => nsub (nsub (at2 D i j) (s i)) (s j))) nninf))
  | dsi_two Y D_train D_test cx cy : ncol X = ncol Y ->
      euclidean_distances_sq vsum (as_float Y) (as_float Y) = Ok D_train ->
      euclidean_distances_sq vsum (as_float X) (as_float Y) = Ok D_test ->
      dsl_centroids vsum argpart D_test (as_float Y) k n_jobs cx ->
      dsl_centroids vsum argpart D_train (as_float Y) k n_jobs cy ->
      dis_sim_local_int X k n_jobs (Some Y)
        (let* cx := cx in
         guard (1 <? n_jobs)%Z TypeError ;;
         let* cy := cy in
         let sx i := nofZ (dsl_sq_int X cx i) in let sy j := nofZ (dsl_sq_int Y cy j) in
         Ok (Arr2 (nrow D_test) (ncol D_test)
               (fun i j => nsub (nsub (at2 D_test i j) (sx i)) (sy j)))).
End DSLInt.

(** the conversion, exactly: towards zero; the value for NaN and infinities is
    undefined in C and arbitrary here (centering.py:417, 439) *)
Definition xtrunc (v : xr) : Z := match v with XFin r => Flocq.Core.Raux.Ztrunc r | _ => 0%Z end.
