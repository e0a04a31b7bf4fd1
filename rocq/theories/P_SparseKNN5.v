(** r_precision on unusual input. *)
From Coq Require Import String.
From Coq Require Import ZArith List Arith Lia Bool Permutation.
From Verif Require Import Py Num Arr Sort S_Neighbors M_IO M_GK M_SNN M_KNN M_MPEmpiric M_SparseKNN.
From Verif Require Import S_SparseKNN P_Neighbors P_KNN P_GK2 P_SparseKNN P_SparseKNN2 P_SparseKNN3 P_SparseKNN4.
Import ListNotations.
Local Open Scope nat_scope.

Section Bad.
  Context {V : Type} {N : Num V} {toX : V -> xr} (CL : CmpLaws V N toX).
  Variable argpart : list V -> list nat -> list nat.
  Hypothesis AP : argpart_ok argpart.
  Variable rp : nat -> list nat -> list nat.
  Hypothesis RP : forall i l, Permutation (rp i l) l.
  Variable sh : nat -> nat -> list nat -> list nat.
  Hypothesis SH : forall i j l, Permutation (sh i j l) l.
  Variable vsum : list V -> V.

  Lemma rprec_open dense (S : smat V) lab metric yp : srow S = length lab -> scol S = length lab ->
    valid_metric metric = true ->
    r_precision argpart rp sh vsum dense S lab metric yp =
    if negb (is_sim metric) || dense then Raise NotImplementedError else
    bind (mapM (rprec_worker argpart rp sh S (enc lab) (erel lab) yp (class_index (ecl lab) int_min)) (seq 0 (length lab)))
      (fun rs => bind (guard (Z.of_nat (sum_nat (map (relevant lab) (seq 0 (length lab)))) =? 0)%Z ZeroDivisionError)
        (fun _ => r_precision argpart rp sh vsum dense S lab metric yp)).
  Proof.
    intros HR HC HM.
    assert (Ew : map (fun c => nth c (erel lab) 0%Z) (enc lab) = map (fun i => Z.of_nat (relevant lab i)) (seq 0 (length lab))).
    { rewrite <- (map_nth_seq (fun c => nth c (erel lab) 0%Z) (enc lab) 0), enc_length. apply map_ext_in.
      intros i Hi. apply in_seq in Hi. apply rel_relevant. lia. }
    assert (E0 : forall sh0, sh0 = Dense [length lab; length lab] \/ sh0 = Sparse (length lab) (length lab) ->
      check_distance_matrix_shape sh0 = Ok tt /\ check_distance_matrix_shape_fits_labels sh0 (Dense [length lab]) = Ok tt).
    { intros sh0 Hsh. unfold check_distance_matrix_shape, check_distance_matrix_shape_fits_labels, check_is_nD_array, guard, dim0, dim1, size_of.
      destruct Hsh as [->| ->]; cbn [shape_of length nth fold_right]; rewrite Nat.mul_1_r, !Nat.eqb_refl; auto. }
    assert (Hm : check_valid_metric_parameter metric = Ok tt).
    { unfold check_valid_metric_parameter, guard. unfold valid_metric in HM. destruct (is_dist metric), (is_sim metric); auto; discriminate. }
    unfold r_precision. rewrite HR, HC.
    destruct (E0 (if dense then Dense [length lab; length lab] else Sparse (length lab) (length lab))) as (-> & ->).
    { destruct dense; auto. }
    cbn [bind]. rewrite Hm. cbn [bind]. unfold guard at 1 2.
    destruct (negb (is_sim metric) || dense); [reflexivity|]. cbn [bind].
    change (unique_labels (lab ++ [int_min])) with (ecl lab). change (map (class_index (ecl lab)) lab) with (enc lab).
    change (map (fun c => (Z.of_nat c - 1)%Z) (bincount (enc lab) 0)) with (erel lab).
    destruct (mapM _ (seq 0 (length lab))); [|reflexivity]. cbn [bind]. rewrite Ew, zsum_map. unfold guard.
    destruct (_ =? 0)%Z; reflexivity.
  Qed.

  Lemma worker_alone (S : smat V) lab yp i : i < length lab -> relevant lab i = 0 ->
    rprec_worker argpart rp sh S (enc lab) (erel lab) yp (class_index (ecl lab) int_min) i =
    Ok (n0, repeat (class_index (ecl lab) int_min) yp).
  Proof. intros Hi E. unfold rprec_worker. rewrite (rel_relevant lab i Hi), E. reflexivity. Qed.

  Lemma worker_fail (S : smat V) lab yp i e : i < length lab -> relevant lab i <> 0 ->
    sp_ranked argpart S i (rp i (seq 0 (length (sp_cols S i)))) [Z.of_nat (relevant lab i)] = Raise e ->
    rprec_worker argpart rp sh S (enc lab) (erel lab) yp (class_index (ecl lab) int_min) i = Raise e.
  Proof.
    intros Hi E H. unfold rprec_worker. rewrite (rel_relevant lab i Hi).
    destruct (Z.eqb_spec (Z.of_nat (relevant lab i)) 0); [lia|]. now rewrite H.
  Qed.

  Lemma rprec_alone (S : smat V) lab yp : srow S = length lab -> scol S = length lab ->
    (forall i, i < length lab -> relevant lab i = 0) ->
    r_precision argpart rp sh vsum false S lab "similarity" yp = Raise ZeroDivisionError.
  Proof.
    intros HR HC H. rewrite rprec_open by (auto; reflexivity). change (is_sim "similarity") with true. cbn [negb orb].
    rewrite (mapM_ok_map _ (fun _ => (n0, repeat (class_index (ecl lab) int_min) yp))).
    2:{ intros i Hi. apply in_seq in Hi. apply worker_alone; [lia|]. apply H. lia. }
    cbn [bind]. rewrite sum_nat_zero; [reflexivity|]. intros i Hi. apply in_seq in Hi. apply H. lia.
  Qed.

  Lemma rprec_empty_row (S : smat V) lab yp i : srow S = length lab -> scol S = length lab ->
    (forall i, i < length lab -> clean_row S i) -> i < length lab -> relevant lab i <> 0 ->
    (forall x, ~ linked S i x) ->
    r_precision argpart rp sh vsum false S lab "similarity" yp = Raise ValueError.
  Proof.
    intros HR HC Hcl Hi Hr Hx. rewrite rprec_open by (auto; reflexivity). change (is_sim "similarity") with true. cbn [negb orb].
    assert (F : forall j, j < length lab -> sp_cols S j = [] -> relevant lab j <> 0 ->
      rprec_worker argpart rp sh S (enc lab) (erel lab) yp (class_index (ecl lab) int_min) j = Raise ValueError).
    { intros j Hj E Hrj. apply worker_fail; auto. apply ranked_empty; [exact E|]. rewrite E. simpl.
      apply Permutation_nil. symmetry. apply RP. }
    assert (E : sp_cols S i = []).
    { destruct (sp_cols S i) as [|x l] eqn:E; [reflexivity|]. exfalso. apply (Hx x), stored_linked. rewrite E. now left. }
    rewrite (mapM_first_raise _ _ ValueError i); [reflexivity|apply in_seq; lia|now apply F|].
    intros j Hj Hok. apply in_seq in Hj. destruct (Nat.eq_dec (relevant lab j) 0) as [E0|E0].
    { rewrite worker_alone in Hok by (auto; lia). discriminate. }
    destruct (sp_cols S j) as [|x l] eqn:Ej; [apply F; auto; lia|]. exfalso.
    destruct (worker_spec CL argpart AP rp RP sh SH S lab yp j HC ltac:(lia) (Hcl j ltac:(lia)))
      as (w & nn & nn' & _ & _ & _ & _ & q & Eq & _). { intros _. rewrite Ej. discriminate. }
    rewrite Eq in Hok. discriminate.
  Qed.

  Lemma rprec_stored_zero (S : smat V) lab yp i x : srow S = length lab -> scol S = length lab ->
    (forall j y, j < length lab -> linked S j y -> nisnan (sval S j y) = false) ->
    (forall j, j < length lab -> exists y, linked S j y) ->
    i < length lab -> relevant lab i <> 0 -> linked S i x -> nonzero (sval S i x) = false ->
    r_precision argpart rp sh vsum false S lab "similarity" yp = Raise IndexError.
  Proof.
    intros HR HC Hnn Hne Hi Hr Hx Hz. rewrite rprec_open by (auto; reflexivity). change (is_sim "similarity") with true. cbn [negb orb].
    assert (F : forall j y, j < length lab -> relevant lab j <> 0 -> linked S j y -> nonzero (sval S j y) = false ->
      rprec_worker argpart rp sh S (enc lab) (erel lab) yp (class_index (ecl lab) int_min) j = Raise IndexError).
    { intros j y Hj Hrj Hy Hzy. apply worker_fail; auto. eapply ranked_zero; eauto. }
    rewrite (mapM_first_raise _ _ IndexError i); [reflexivity|apply in_seq; lia|now apply (F i x)|].
    intros j Hj Hok. apply in_seq in Hj. destruct (Nat.eq_dec (relevant lab j) 0) as [E0|E0].
    { rewrite worker_alone in Hok by (auto; lia). discriminate. }
    destruct (Exists_dec (fun y => nonzero (sval S j y) = false) (sp_cols S j)) as [Ex|Nx].
    { intros y. destruct (nonzero (sval S j y)); [right; discriminate|now left]. }
    - apply Exists_exists in Ex. destruct Ex as (y & Hy & Ey). apply (F j y); auto; [lia|now apply stored_linked].
    - exfalso.
      assert (Hc : clean_row S j).
      { intros y Hy. split; [apply Hnn; [lia|exact Hy]|]. destruct (nonzero (sval S j y)) eqn:Ey; [reflexivity|].
        exfalso. apply Nx, Exists_exists. exists y. split; [now apply stored_linked|exact Ey]. }
      destruct (worker_spec CL argpart AP rp RP sh SH S lab yp j HC ltac:(lia) Hc)
        as (w & nn & nn' & _ & _ & _ & _ & q & Eq & _).
      { intros _ E. destruct (Hne j ltac:(lia)) as (y & Hy). apply stored_linked in Hy. rewrite E in Hy. contradiction. }
      rewrite Eq in Hok. discriminate.
  Qed.

  (** an object less similar to itself than to another one stays in its own list *)
  Lemma self_stays (S : smat V) i w m nn : clean_row S i -> linked S i i -> linked S i w ->
    (forall x, linked S i x -> nlt (sval S i w) (sval S i x) = false) ->
    (forall x, linked S i x -> x <> i -> nlt (sval S i x) (sval S i i) = true \/ nlt (sval S i i) (sval S i x) = true) ->
    let B := length (filter (fun x => is_stored S i x && nlt (sval S i i) (sval S i x)) (seq 0 (scol S))) in
    1 <= B <= m ->
    top_list (sval S i) (fun x => linked S i x /\ x <> w) (Nat.min m (length (sp_cols S i) - 1)) nn ->
    w <> i /\ In i nn.
  Proof.
    intros HC Hl Hw Hm Ht B HB T.
    set (Bl := filter (fun x => is_stored S i x && nlt (sval S i i) (sval S i x)) (seq 0 (scol S))).
    assert (HBl : forall x, In x Bl <-> linked S i x /\ nlt (sval S i i) (sval S i x) = true).
    { intros x. unfold Bl. rewrite filter_In, andb_true_iff, <- stored_linked. unfold sp_cols. rewrite filter_In. tauto. }
    assert (Hwi : w <> i).
    { intros ->. destruct Bl as [|b l] eqn:E; [unfold B in HB; fold Bl in HB; rewrite E in HB; simpl in HB; lia|].
      destruct (proj1 (HBl b) (or_introl eq_refl)) as (Hb & Hb2). rewrite (Hm b Hb) in Hb2. discriminate. }
    split; [exact Hwi|]. destruct (in_dec Nat.eq_dec i nn) as [|Hn]; [assumption|]. exfalso.
    assert (Hinc : incl (w :: nn) Bl).
    { assert (Hgt : forall y, linked S i y -> y <> i -> nlt (sval S i y) (sval S i i) = false -> In y Bl).
      { intros y Hy Hyi E. apply HBl. split; [exact Hy|]. destruct (Ht y Hy Hyi) as [E'|E']; [congruence|exact E']. }
      intros y [<-|Hy].
      - apply Hgt; auto.
      - destruct (tl_in _ _ _ _ T y Hy) as (Hy1 & Hy2). apply Hgt; auto.
        + intros ->. contradiction.
        + apply (tl_best _ _ _ _ T i y); auto. }
    assert (ND : NoDup (w :: nn)).
    { constructor; [|apply (tl_nodup _ _ _ _ T)]. intros Hin. destruct (tl_in _ _ _ _ T w Hin) as (_ & H). congruence. }
    pose proof (NoDup_incl_length ND Hinc) as L. simpl in L. rewrite (tl_len _ _ _ _ T) in L. unfold B in HB. fold Bl in HB.
    assert (Lc : Datatypes.S (length Bl) <= length (sp_cols S i)).
    { assert (NoDup (i :: Bl)).
      { constructor; [|apply NoDup_filter, seq_NoDup]. intros Hin. apply HBl in Hin. destruct Hin as (_ & Hin).
        rewrite (nlt_irrefl CL) in Hin. discriminate. }
      apply (NoDup_incl_length H). intros x [<-|Hx]; apply stored_linked; [exact Hl|now apply HBl]. }
    lia.
  Qed.
End Bad.
