(** The programs of M_InPlaceSparse.v compute what the models compute. *)
From Coq Require Import String.
From Coq Require Import ZArith List Arith Lia Bool.
From Verif Require Import Py Num Arr S_Neighbors M_IO M_MPEmpiric M_MPDist M_InPlaceSparse S_InPlaceSparse.
Import ListNotations.

Section Run.
  Context {V : Type}.

  Lemma put_end (h l : sheap V) k f : s_put (h ++ l) (length h + k) f = h ++ s_put l k f.
  Proof. induction h as [|A h IH]; cbn; [reflexivity|]. now rewrite IH. Qed.

  Lemma get_end (h l : sheap V) k A : nth_error l k = Some A -> nth_error (h ++ l) (length h + k) = Some A.
  Proof. intros E. rewrite nth_error_app2 by lia. now replace (length h + k - length h) with k by lia. Qed.

  Lemma get_old (h l : sheap V) a A : nth_error h a = Some A -> nth_error (h ++ l) a = Some A.
  Proof. intros E. rewrite nth_error_app1; [assumption|]. apply nth_error_Some. congruence. Qed.

  Lemma kept_app (h l : sheap V) : kept h (h ++ l).
  Proof. intros a A. apply get_old. Qed.

  Lemma run_get (h : sheap V) a A : nth_error h a = Some A -> s_get a h = (Ok A, h).
  Proof. intros E. unfold s_get. now rewrite E. Qed.

  Lemma put_length (l : sheap V) k f : length (s_put l k f) = length l.
  Proof. revert k. induction l as [|A l IH]; intros [|k]; cbn; auto. Qed.

  Lemma put_put (l : sheap V) k f g : s_put (s_put l k f) k g = s_put l k (fun A => g (f A)).
  Proof. revert k. induction l as [|A l IH]; intros [|k]; cbn; auto. now rewrite IH. Qed.

  Lemma put_same (l : sheap V) k f : (forall A, f A = A) -> s_put l k f = l.
  Proof. intros E. revert k. induction l as [|A l IH]; intros [|k]; cbn; auto; now rewrite ?E, ?IH. Qed.

  (** a loop whose body changes the matrix at one position *)
  Lemma run_for (h : sheap V) k (g : nat -> smat V -> smat V) body l L :
    (forall i L', body i (h ++ L') = (Ok tt, h ++ s_put L' k (g i))) ->
    s_for l body (h ++ L) = (Ok tt, h ++ s_put L k (fun M => fold_left (fun M i => g i M) l M)).
  Proof.
    intros B. revert L. induction l as [|i l IH]; intros L; cbn [s_for fold_left].
    - unfold s_ret. now rewrite put_same.
    - unfold s_bind. rewrite B, IH, put_put. reflexivity.
  Qed.
End Run.

Section Facts.
  Context {V : Type} {N : Num V}.

  Lemma fold_put_row (f : nat -> nat -> option V) (poor : nat -> bool) l M a b :
    let M' := fold_left (fun M i => if poor i then M else put_row i (f i) M) l M in
    srow M' = srow M /\ scol M' = scol M /\
    stored M' a b = if existsb (Nat.eqb a) l && negb (poor a) && (a <=? b) then f a b else stored M a b.
  Proof.
    cbn zeta. revert M. induction l as [|i l IH]; intros M; cbn [fold_left existsb]; [auto|].
    destruct (IH (if poor i then M else put_row i (f i) M)) as (A & B & C). rewrite A, B, C.
    split; [destruct (poor i); reflexivity|]. split; [destruct (poor i); reflexivity|].
    destruct (Nat.eqb_spec a i) as [->|Hne].
    - cbn [orb]. destruct (poor i); cbn [negb andb]; rewrite ?andb_false_r; cbn [andb]; [reflexivity|].
      cbn [put_row stored]. rewrite Nat.eqb_refl. cbn [andb].
      destruct (i <=? b); rewrite ?andb_false_r, ?andb_true_r; [|reflexivity].
      now destruct (existsb (Nat.eqb i) l).
    - cbn [orb]. destruct (existsb (Nat.eqb a) l && negb (poor a) && (a <=? b)); [reflexivity|].
      destruct (poor i); [reflexivity|]. cbn. apply Nat.eqb_neq in Hne. now rewrite Hne.
  Qed.

  Lemma fold_whole_row (f : nat -> nat -> option V) (poor : nat -> bool) l M a b :
    let M' := fold_left (fun M i => if poor i then put_whole_row i (f i) M else M) l M in
    srow M' = srow M /\ scol M' = scol M /\
    stored M' a b = if existsb (Nat.eqb a) l && poor a then f a b else stored M a b.
  Proof.
    cbn zeta. revert M. induction l as [|i l IH]; intros M; cbn [fold_left existsb]; [auto|].
    destruct (IH (if poor i then put_whole_row i (f i) M else M)) as (A & B & C). rewrite A, B, C.
    split; [destruct (poor i); reflexivity|]. split; [destruct (poor i); reflexivity|].
    destruct (Nat.eqb_spec a i) as [->|Hne].
    - cbn [orb]. destruct (poor i); rewrite ?andb_false_r; cbn [andb]; [|reflexivity].
      cbn [put_whole_row stored]. rewrite Nat.eqb_refl. now destruct (existsb (Nat.eqb i) l).
    - cbn [orb]. destruct (existsb (Nat.eqb a) l && poor a); [reflexivity|].
      destruct (poor i); [|reflexivity]. cbn. apply Nat.eqb_neq in Hne. now rewrite Hne.
  Qed.

  Lemma existsb_seq n a : existsb (Nat.eqb a) (seq 0 n) = (a <? n).
  Proof.
    destruct (Nat.ltb_spec a n).
    - apply existsb_exists. exists a. split; [apply in_seq; lia|apply Nat.eqb_refl].
    - apply not_true_is_false. intros E. apply existsb_exists in E as (x & Hx & E). apply in_seq in Hx. apply Nat.eqb_eq in E. lia.
  Qed.

  Variable vsum : list V -> V.

  Lemma flat_map_map {A B C} (f : B -> list C) (g : A -> B) l : flat_map f (map g l) = flat_map (fun x => f (g x)) l.
  Proof. induction l as [|x l IH]; cbn; [reflexivity|]. now rewrite IH. Qed.

  Lemma nth_all (rows : list nat) : map (fun a => nth a rows 0) (seq 0 (length rows)) = rows.
  Proof.
    apply (nth_ext _ _ 0 0).
    - now rewrite map_length, seq_length.
    - rewrite map_length, seq_length. intros k Hk. rewrite (nth_indep _ 0 (nth 0 rows 0)) by (rewrite map_length, seq_length; lia).
      rewrite (map_nth (fun a => nth a rows 0)). now rewrite seq_nth.
  Qed.

  Lemma take_rows_col (A : smat V) rows j : whole_col (take_rows rows A) j = sp_col A rows j.
  Proof.
    unfold whole_col, sp_col. cbn [srow take_rows]. rewrite <- (nth_all rows) at 2. rewrite flat_map_map. reflexivity.
  Qed.

  Lemma square_col (A : smat V) j : whole_col (square A) j = map (fun v => nmul v v) (whole_col A j).
  Proof.
    unfold whole_col, sp_col. cbn [srow square]. induction (seq 0 (srow A)) as [|i l IH]; cbn [flat_map]; [reflexivity|].
    rewrite IH, map_app. f_equal. cbn [square stored]. now destruct (stored A i j).
  Qed.
End Facts.
