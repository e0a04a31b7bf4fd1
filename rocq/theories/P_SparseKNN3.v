(** A run of r_precision. *)
From Coq Require Import String.
From Coq Require Import ZArith List Arith Lia Bool Permutation.
From Verif Require Import Py Num Arr Sort S_Neighbors M_IO M_GK M_SNN M_KNN M_MPEmpiric M_SparseKNN.
From Verif Require Import S_SparseKNN P_Neighbors P_KNN P_GK2 P_SparseKNN P_SparseKNN2.
Import ListNotations.
Local Open Scope nat_scope.

Lemma fin_choice {A} (d : A) (P : nat -> A -> Prop) n : (forall i, i < n -> exists x, P i x) ->
  exists f, forall i, i < n -> P i (f i).
Proof.
  induction n as [|n IH]; intros H; [exists (fun _ => d); intros; lia|].
  destruct IH as (f & Hf); [intros i Hi; apply H; lia|]. destruct (H n) as (x & Hx); [lia|].
  exists (fun i => if i =? n then x else f i). intros i Hi. destruct (Nat.eqb_spec i n) as [->|]; [exact Hx|apply Hf; lia].
Qed.

Lemma zsum_map (f : nat -> nat) l : fold_right Z.add 0%Z (map (fun x => Z.of_nat (f x)) l) = Z.of_nat (sum_nat (map f l)).
Proof. induction l as [|a l IH]; simpl; [reflexivity|]. rewrite IH. lia. Qed.

Lemma sum_nat_ge (f : nat -> nat) l x : In x l -> f x <= sum_nat (map f l).
Proof. induction l as [|a l IH]; simpl; [contradiction|]. intros [->|H]; [lia|]. specialize (IH H). lia. Qed.

Lemma n_linked_cols {V} {N : Num V} (S : smat V) i : linked S i i -> length (sp_cols S i) = Datatypes.S (n_linked S i).
Proof.
  intros (Hi & v & E). unfold sp_cols, n_linked. apply filter_split_one; [exact Hi|]. unfold is_stored. now rewrite E.
Qed.

Section Run.
  Context {V : Type} {N : Num V} {toX : V -> xr} (CL : CmpLaws V N toX).
  Variable argpart : list V -> list nat -> list nat.
  Hypothesis AP : argpart_ok argpart.
  Variable rp : nat -> list nat -> list nat.
  Hypothesis RP : forall i l, Permutation (rp i l) l.
  Variable sh : nat -> nat -> list nat -> list nat.
  Hypothesis SH : forall i j l, Permutation (sh i j l) l.
  Variable vsum : list V -> V.

  Lemma self_first_max (S : smat V) i w : self_first S i -> linked S i w ->
    (forall x, linked S i x -> nlt (sval S i w) (sval S i x) = false) -> w = i.
  Proof.
    intros (Hl & Hs) Hw Hm. destruct (Nat.eq_dec w i) as [|Hne]; [assumption|]. exfalso.
    specialize (Hm i Hl). rewrite (Hs w Hw Hne) in Hm. discriminate.
  Qed.

  Definition mates (lab : list Z) : Prop := exists i, i < length lab /\ relevant lab i <> 0.

  Lemma rprec_run (S : smat V) (lab : list Z) yp : srow S = length lab -> scol S = length lab ->
    (forall i, i < length lab -> clean_row S i) ->
    (forall i, i < length lab -> relevant lab i <> 0 -> sp_cols S i <> []) -> mates lab ->
    exists (W : nat -> nat) (NN NN' : nat -> list nat),
      (forall i, i < length lab ->
         (relevant lab i = 0 -> NN i = []) /\
         (relevant lab i <> 0 -> linked S i (W i) /\
            (forall x, linked S i x -> nlt (sval S i (W i)) (sval S i x) = false) /\
            top_list (sval S i) (fun x => linked S i x /\ x <> W i) (Nat.min (relevant lab i) (length (sp_cols S i) - 1)) (NN i)) /\
         Permutation (NN' i) (NN i) /\ ((exists x, In x (NN i) /\ nisfin (sval S i x) = true) -> NN' i = NN i)) /\
      r_precision argpart rp sh vsum false S lab "similarity" yp =
        Ok (RpOut (ndiv (vsum (map (fun i => item_val lab i (NN' i)) (seq 0 (length lab)))) (nofnat (length lab)))
                  (ndiv (vsum (map (fun i => nmul (item_val lab i (NN' i)) (nofnat (relevant lab i))) (seq 0 (length lab))))
                        (nofnat (sum_nat (map (relevant lab) (seq 0 (length lab))))))
                  (map (fun i => item_val lab i (NN' i)) (seq 0 (length lab)))
                  (erel lab) (enc lab)
                  (map (fun i => item_lab lab i (NN' i) yp) (seq 0 (length lab)))).
  Proof.
    intros HR HC Hc Hne (i0 & Hi0 & Hr0).
    set (n := length lab) in *.
    destruct (fin_choice (0, @nil nat, @nil nat, (@n0 V N, @nil nat))
      (fun i X => let '(w, nn, nn', q) := X in
        (relevant lab i = 0 -> nn = []) /\
        (relevant lab i <> 0 -> linked S i w /\ (forall x, linked S i x -> nlt (sval S i w) (sval S i x) = false) /\
           top_list (sval S i) (fun x => linked S i x /\ x <> w) (Nat.min (relevant lab i) (length (sp_cols S i) - 1)) nn) /\
        Permutation nn' nn /\ ((exists x, In x nn /\ nisfin (sval S i x) = true) -> nn' = nn) /\
        rprec_worker argpart rp sh S (enc lab) (erel lab) yp (class_index (ecl lab) int_min) i = Ok q /\
        fst q = item_val lab i nn' /\ map (fun c => nth c (ecl lab) 0%Z) (snd q) = item_lab lab i nn' yp) n) as (f & Hf).
    { intros i Hi. destruct (worker_spec CL argpart AP rp RP sh SH S lab yp i HC Hi (Hc i Hi) (Hne i Hi))
        as (w & nn & nn' & A & B & C & D & q & E). exists (w, nn, nn', q). auto. }
    exists (fun i => fst (fst (fst (f i)))), (fun i => snd (fst (fst (f i)))), (fun i => snd (fst (f i))).
    split.
    { intros i Hi. specialize (Hf i Hi). destruct (f i) as (((w & nn) & nn') & q). cbn [fst snd].
      destruct Hf as (A & B & C & D & _). auto. }
    unfold r_precision. cbn [check_distance_matrix_shape check_is_nD_array].
    unfold check_distance_matrix_shape, check_distance_matrix_shape_fits_labels, check_is_nD_array, guard, dim0, dim1, size_of, shape_of.
    cbn [length nth fold_right]. rewrite HR, HC. fold n. rewrite Nat.mul_1_r, !Nat.eqb_refl.
    cbn [negb Nat.eqb bind].
    change (check_valid_metric_parameter "similarity") with (Ok tt). change (is_sim "similarity") with true. cbn [negb orb bind].
    change (unique_labels (lab ++ [int_min])) with (ecl lab). change (map (class_index (ecl lab)) lab) with (enc lab).
    change (map (fun c => (Z.of_nat c - 1)%Z) (bincount (enc lab) 0)) with (erel lab).
    rewrite (mapM_ok_map _ (fun i => snd (f i))).
    2:{ intros i Hi. apply in_seq in Hi. specialize (Hf i ltac:(lia)). destruct (f i) as (((w & nn) & nn') & q).
        cbn [snd]. now destruct Hf as (_ & _ & _ & _ & E & _). }
    cbn [bind].
    assert (Ew : map (fun c => nth c (erel lab) 0%Z) (enc lab) = map (fun i => Z.of_nat (relevant lab i)) (seq 0 n)).
    { rewrite <- (map_nth_seq (fun c => nth c (erel lab) 0%Z) (enc lab) 0), enc_length. apply map_ext_in.
      intros i Hi. apply in_seq in Hi. apply rel_relevant. fold n. lia. }
    rewrite Ew, zsum_map.
    assert (Hpos : sum_nat (map (relevant lab) (seq 0 n)) <> 0).
    { pose proof (sum_nat_ge (relevant lab) (seq 0 n) i0 ltac:(apply in_seq; lia)). lia. }
    destruct (Z.eqb_spec (Z.of_nat (sum_nat (map (relevant lab) (seq 0 n)))) 0) as [E|_]; [lia|].
    cbn [bind]. f_equal. rewrite !map_map.
    assert (Ei : map (fun i => fst (snd (f i))) (seq 0 n) = map (fun i => item_val lab i (snd (fst (f i)))) (seq 0 n)).
    { apply map_ext_in. intros i Hi. apply in_seq in Hi. specialize (Hf i ltac:(lia)). destruct (f i) as (((w & nn) & nn') & q).
      cbn [fst snd]. now destruct Hf as (_ & _ & _ & _ & _ & E & _). }
    rewrite Ei. f_equal.
    - f_equal. f_equal. apply map_ext_in. intros i Hi. apply in_seq in Hi. unfold nofnat at 1. f_equal.
      + rewrite nth_map_seq by lia. reflexivity.
      + f_equal. rewrite nth_map_seq by lia. reflexivity.
    - apply map_ext_in. intros i Hi. apply in_seq in Hi. specialize (Hf i ltac:(lia)). destruct (f i) as (((w & nn) & nn') & q).
      cbn [fst snd]. now destruct Hf as (_ & _ & _ & _ & _ & _ & E).
  Qed.
End Run.
