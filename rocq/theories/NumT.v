(** Transcendental functions on extended reals, as numpy's exp and log treat
    infinities, zero, negative numbers and NaN, and exact sums.  In float64
    models exp, log and sum are arbitrary function parameters instead. *)
From Coq Require Import ZArith Reals Lra Lia List Bool Permutation.
From Verif Require Import Num.
Import ListNotations.

Definition xexp (x : xr) : xr :=
  match x with
  | XNaN => XNaN | XNInf => XFin 0 | XPInf => XPInf | XFin r => XFin (exp r)
  end.

Definition xln (x : xr) : xr :=
  match x with
  | XNaN | XNInf => XNaN
  | XPInf => XPInf
  | XFin r => if Rlt_dec r 0 then XNaN else if Req_EM_T r 0 then XNInf else XFin (ln r)
  end.

Definition xsum (l : list xr) : xr := fold_right xadd (XFin 0) l.

Definition rsum (l : list R) : R := fold_right Rplus 0%R l.

Lemma xsum_fin l : xsum (map XFin l) = XFin (rsum l).
Proof. induction l as [|r l IH]; [reflexivity|]. cbn [map]. change (xsum (XFin r :: map XFin l)) with (xadd (XFin r) (xsum (map XFin l))). now rewrite IH. Qed.

Lemma rsum_app a b : rsum (a ++ b) = (rsum a + rsum b)%R.
Proof. induction a; simpl; lra. Qed.

Lemma rsum_scal c l : rsum (map (Rmult c) l) = (c * rsum l)%R.
Proof. induction l; simpl; lra. Qed.

Lemma rsum_perm a b : Permutation a b -> rsum a = rsum b.
Proof. induction 1; simpl; lra. Qed.

Lemma rsum_plus {A} (f g : A -> R) l :
  rsum (map (fun x => f x + g x)%R l) = (rsum (map f l) + rsum (map g l))%R.
Proof. induction l; simpl; lra. Qed.

Lemma rsum_mult {A} c (f : A -> R) l : rsum (map (fun x => c * f x)%R l) = (c * rsum (map f l))%R.
Proof. induction l; simpl; lra. Qed.

Lemma rsum_const {A} c (l : list A) : rsum (map (fun _ => c) l) = (INR (length l) * c)%R.
Proof.
  induction l as [|a l IH]; [simpl; lra|]. cbn [map rsum fold_right length].
  change (fold_right Rplus 0%R (map (fun _ => c) l)) with (rsum (map (fun _ => c) l)).
  rewrite IH, S_INR. lra.
Qed.

Lemma rsum_ext {A} (f g : A -> R) l : (forall x, In x l -> f x = g x) -> rsum (map f l) = rsum (map g l).
Proof. intros H. f_equal. now apply map_ext_in. Qed.

Lemma rsum_nonneg l : (forall x, In x l -> 0 <= x)%R -> (0 <= rsum l)%R.
Proof.
  induction l as [|x l IH]; simpl; intros H; [lra|].
  specialize (IH (fun y Hy => H y (or_intror Hy))). specialize (H x (or_introl eq_refl)). lra.
Qed.

Lemma rsum_pos l : l <> [] -> (forall x, In x l -> 0 < x)%R -> (0 < rsum l)%R.
Proof.
  destruct l as [|x l]; [congruence|]. simpl. intros _ H.
  pose proof (rsum_nonneg l (fun y Hy => Rlt_le _ _ (H y (or_intror Hy)))).
  specialize (H x (or_introl eq_refl)). lra.
Qed.

Lemma rsum_swap {A B} (f : A -> B -> R) la lb :
  rsum (map (fun a => rsum (map (f a) lb)) la) = rsum (map (fun b => rsum (map (fun a => f a b) la)) lb).
Proof.
  induction la as [|a la IH]; simpl.
  - induction lb; simpl; [reflexivity|]. lra.
  - change (fold_right Rplus 0%R) with rsum. rewrite IH.
    rewrite <- rsum_plus. reflexivity.
Qed.
