(** Python-level effects: a call either returns a value or raises an
    exception.  Only the exception *class* is modelled, not the message. *)
From Coq Require Import String ZArith List.
Import ListNotations.

Inductive exc : Type :=
| TypeError
| ValueError
| IndexError
| NotImplementedError
| ZeroDivisionError
| UnboundLocalError
| AttributeError
| KeyError
| OverflowError
| AssertionError
| FileNotFoundError
| ImportError.

Inductive result (A : Type) : Type :=
| Ok (a : A)
| Raise (e : exc).
Arguments Ok {A} a.
Arguments Raise {A} e.

Definition bind {A B} (x : result A) (f : A -> result B) : result B :=
  match x with
  | Ok a => f a
  | Raise e => Raise e
  end.

Declare Scope py_scope.
Delimit Scope py_scope with py.
Notation "'let*' x ':=' e 'in' f" := (bind e (fun x => f))
  (at level 200, x pattern, e at level 100, f at level 200) : py_scope.
Notation "e ;; f" := (bind e (fun _ : unit => f))
  (at level 100, f at level 200, right associativity) : py_scope.

(** [if c: raise e] followed by the rest *)
Definition guard (c : bool) (e : exc) : result unit :=
  if c then Raise e else Ok tt.

Fixpoint mapM {A B} (f : A -> result B) (l : list A) : result (list B) :=
  match l with
  | [] => Ok []
  | a :: l' => bind (f a) (fun b => bind (mapM f l') (fun bs => Ok (b :: bs)))
  end.

Definition is_ok {A} (x : result A) : bool :=
  match x with Ok _ => true | Raise _ => false end.

Lemma bind_ok_inv {A B} (x : result A) (f : A -> result B) b :
  bind x f = Ok b -> exists a, x = Ok a /\ f a = Ok b.
Proof. destruct x; simpl; intros H; [eauto | discriminate]. Qed.

Lemma mapM_length {A B} (f : A -> result B) l r :
  mapM f l = Ok r -> length r = length l.
Proof.
  revert r; induction l as [|a l IH]; simpl; intros r H.
  - injection H as <-; reflexivity.
  - apply bind_ok_inv in H as (b & _ & H).
    apply bind_ok_inv in H as (bs & Hbs & H).
    injection H as <-; simpl; f_equal; auto.
Qed.

Lemma mapM_ext {A B} (f g : A -> result B) l :
  (forall a, In a l -> f a = g a) -> mapM f l = mapM g l.
Proof.
  induction l as [|a l IH]; simpl; intros H; [reflexivity|].
  rewrite (H a) by auto. destruct (g a); simpl; [|reflexivity].
  rewrite IH; auto.
Qed.

Lemma mapM_ok_map {A B} (f : A -> result B) (g : A -> B) l :
  (forall a, In a l -> f a = Ok (g a)) -> mapM f l = Ok (map g l).
Proof.
  induction l as [|a l IH]; simpl; intros H; [reflexivity|].
  rewrite (H a) by auto; simpl. rewrite IH; auto.
Qed.

Lemma mapM_nth {A B} (f : A -> result B) l r i da db :
  mapM f l = Ok r -> i < length l -> f (nth i l da) = Ok (nth i r db).
Proof.
  revert r i; induction l as [|a l IH]; simpl; intros r i H Hi.
  - inversion Hi.
  - apply bind_ok_inv in H as (b & Hb & H).
    apply bind_ok_inv in H as (bs & Hbs & H).
    injection H as <-. destruct i; simpl; [assumption|].
    apply IH; auto. apply PeanoNat.Nat.succ_lt_mono; assumption.
Qed.

Lemma mapM_inv_map {A B} (f : A -> result B) l r :
  mapM f l = Ok r -> Forall2 (fun a b => f a = Ok b) l r.
Proof.
  revert r; induction l as [|a l IH]; simpl; intros r H.
  - injection H as <-; constructor.
  - apply bind_ok_inv in H as (b & Hb & H).
    apply bind_ok_inv in H as (bs & Hbs & H).
    injection H as <-. constructor; auto.
Qed.

Lemma mapM_raise {A B} (f : A -> result B) l e :
  mapM f l = Raise e -> exists a, In a l /\ f a = Raise e.
Proof.
  induction l as [|a l IH]; simpl; intros H; [discriminate|].
  destruct (f a) eqn:Ha; simpl in H.
  - destruct (mapM f l) eqn:Hl; simpl in H; [discriminate|].
    injection H as <-. destruct IH as (x & ? & ?); auto. eauto.
  - injection H as <-; eauto.
Qed.
