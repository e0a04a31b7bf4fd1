(** Which memory the approximate estimator shares with its caller
    (/repo/hub_toolbox/approximate.py:1409-1414, 1460, 821-823, 895-897, 1056-1058,
    1145-1147, 1282-1284), for fixed vantage points.

    check_array returns the array it was given if that has the requested dtype
    already, and a new array otherwise.  fit keeps a reference to what it got
    unless it draws a sample: indexing with the sample gives a new array.

    Simplifications: an array with another dtype is represented by its values
    after the conversion.  [sdist] is a function of two rows: scikit-learn 0.21
    and later ignore the stored norms X_train_norm_squared_ of float32 rows. *)
From Coq Require Import String.
From Coq Require Import ZArith List Arith Bool.
From Verif Require Import Py Num Arr M_Dist M_Approx M_ApproxPredict M_Lifecycle.
Import ListNotations.
Local Open Scope py_scope.

Section Shared.
  Context {V : Type} {N : Num V}.
  Variable vsum : list V -> V.
  Variable sdist : string -> nat -> (nat -> V) -> (nat -> V) -> V.
  Variables (vexp : V -> V) (vsf : V -> V -> V -> V).
  Variable vstore : f64 -> V.
  Variable part : list V -> list nat -> list V.
  Variable argpart : list V -> list nat -> list nat.
  Variable P : par.

  (** the arrays of the caller: data, and whether the dtype is float32; labels, and
      whether the dtype is int32 (approximate.py:1409-1414) *)
  Record mem := Mem { arr : nat -> arr2 V; arr32 : nat -> bool; lab : nat -> list Z; lab32 : nat -> bool }.
  (** X_train_ is an array of the caller or one of its own (approximate.py:821, 895, 1056, 1145, 1282) *)
  Inductive xsrc := XRef (r : nat) | XOwn (A : arr2 V).
  (** y_train_ (approximate.py:822, 896, 1057, 1146, 1283) *)
  Inductive ysrc := YNone | YRef (r : nat) | YOwn (l : list Z).
  (** the attributes fit sets, see [fitted] (approximate.py:821-823, 895-897, 1056-1062, 1145-1147, 1281-1284) *)
  Record sfit := SFit { t_X : xsrc; t_y : ysrc; t_ind : list nat; t_extra : @extra V }.
  (** the object, see [est] (approximate.py:1393-1526) *)
  Record sobj := SObj { o_ns : nat; o_n : option nat; o_fit : option sfit;
                        o_sec : option (arr2 V); o_sparse : option (@sparse_attr V) }.

  (** what the methods find in the attributes (approximate.py:829, 842-855, 1074-1081, 1162-1169, 1308-1315) *)
  Definition deref (m : mem) (f : sfit) : @fitted V :=
    Fitted (match t_X f with XRef r => rows_at (arr m r) (t_ind f) | XOwn A => A end)
           (match t_y f with
            | YNone => None
            | YRef r => Some (map (fun a => nth a (lab m r) 0%Z) (t_ind f))
            | YOwn l => Some l
            end) (t_ind f) (t_extra f).
  (** the object with its present contents (approximate.py:1442-1526) *)
  Definition view (m : mem) (o : sobj) : @est V :=
    Est (o_ns o) (o_n o) (option_map (deref m) (o_fit o)) (o_sec o) (o_sparse o).

  (** approximate.py:1409-1414 and 821-823, 895-897, 1056-1058, 1145-1147, 1282-1284: what
      fit stores after it was called with the arrays [x] and [y] *)
  Definition stored_fit (m : mem) (x : nat) (y : option nat) (f : @fitted V) : sfit :=
    let own := match f_y f with Some l => YOwn l | None => YNone end in
    SFit (match p_kind P with KNone => if arr32 m x then XRef x else XOwn (f_X f) | _ => XOwn (f_X f) end)
         (match p_kind P, y with KNone, Some l => if lab32 m l then YRef l else own | _, _ => own end)
         (f_ind f) (f_extra f).

  (** sklearn refuses training data that is no longer finite when it computes the
      distances (approximate.py:842-855, 966-971, 1079-1081, 1167-1169, 1313-1315);
      an array of its own is as fit left it *)
  Definition sound (m : mem) (o : sobj) : result unit :=
    match o_fit o with
    | Some f => match t_X f with XRef _ => check_array (f_X (deref m f)) | XOwn _ => Ok tt end
    | None => Ok tt
    end.

  (** the methods, and assignments of the caller to the elements of an array
      (approximate.py:1393-1526) *)
  Inductive scall := ZFit (ind : list nat) (x : nat) (y : option nat) | ZTransform (q : nat) | ZPredict (q : nat)
    | ZWrite (r : nat) (A : arr2 V) | ZWriteLabels (r : nat) (l : list Z).
  (** what the caller sees (approximate.py:1393-1526) *)
  Inductive answer := AnsFit (r : outcome unit) | AnsTrans (r : outcome (arr2 V)) | AnsPred (r : outcome (list Z)) | AnsWrite.

  (** [a[i] = v] (the memory between the calls of approximate.py:1393-1526) *)
  Definition set_at {A} (f : nat -> A) (r : nat) (a : A) : nat -> A := fun x => if Nat.eqb x r then a else f x.

  (** one call or assignment (approximate.py:1393-1526) *)
  Inductive sstep : mem * sobj -> scall -> mem * sobj -> answer -> Prop :=
  | z_fit m o ind x y s' r :
      do_fit vsum sdist part argpart P (view m o) ind (arr m x) (option_map (lab m) y) s' r ->
      sstep (m, o) (ZFit ind x y)
        (m, SObj (e_ns s') (e_n s')
                 (match r with Done _ => option_map (stored_fit m x y) (e_fit s') | _ => o_fit o end)
                 (e_sec s') (e_sparse s')) (AnsFit r)
  | z_transform m o q s' r : sound m o = Ok tt ->
      do_transform vsum sdist vexp vsf vstore part argpart P (view m o) (arr m q) s' r ->
      sstep (m, o) (ZTransform q) (m, SObj (o_ns o) (o_n o) (o_fit o) (e_sec s') (e_sparse s')) (AnsTrans r)
  | z_transform_bad m o q e : sound m o = Raise e ->
      sstep (m, o) (ZTransform q) (m, o) (AnsTrans (Failed e))
  | z_predict m o q s' r : sound m o = Ok tt ->
      do_predict vsum sdist vexp vsf vstore part argpart P (view m o) (arr m q) s' r ->
      sstep (m, o) (ZPredict q) (m, SObj (o_ns o) (o_n o) (o_fit o) (e_sec s') (e_sparse s')) (AnsPred r)
  | z_predict_bad m o q e : sound m o = Raise e ->
      sstep (m, o) (ZPredict q) (m, o) (AnsPred (Failed e))
  | z_write m o r A : nrow A = nrow (arr m r) -> ncol A = ncol (arr m r) ->
      sstep (m, o) (ZWrite r A) (Mem (set_at (arr m) r A) (arr32 m) (lab m) (lab32 m), o) AnsWrite
  | z_labels m o r l : length l = length (lab m r) ->
      sstep (m, o) (ZWriteLabels r l) (Mem (arr m) (arr32 m) (set_at (lab m) r l) (lab32 m), o) AnsWrite.

  (** any number of them (approximate.py:1393-1526) *)
  Inductive srun (st : mem * sobj) : list scall -> mem * sobj -> Prop :=
  | zr_nil : srun st [] st
  | zr_snoc l c a st1 st2 : srun st l st1 -> sstep st1 c st2 a -> srun st (l ++ [c]) st2.
End Shared.
