(** Proofs about reading text files. *)
From Coq Require Import String Ascii Decimal DecimalString DecimalZ.
From Coq Require Import ZArith List Arith Lia Bool.
From Verif Require Import Py Num Arr M_IO M_Dist M_Text S_Text.
Import ListNotations.

(** *** decimal notation *)
Lemma digits_acc d acc :
  digits (list_ascii_of_string (NilEmpty.string_of_uint d)) (Zpos acc) true = Some (Zpos (Pos.of_uint_acc d acc)).
Proof.
  revert acc. induction d; intros acc; cbn [NilEmpty.string_of_uint list_ascii_of_string digits Pos.of_uint_acc]; [reflexivity|..];
    rewrite <- IHd; unfold digit;
    match goal with |- context [nat_of_ascii ?c] => let n := eval cbv in (nat_of_ascii c) in change (nat_of_ascii c) with n end;
    cbv beta iota zeta delta [Nat.leb andb];
    match goal with |- digits _ ?a true = digits _ ?b true => replace a with b by (cbv [Nat.sub Z.of_nat Pos.of_succ_nat Pos.succ]; lia) end;
    reflexivity.
Qed.
Lemma digits_uint d : d <> Nil ->
  digits (list_ascii_of_string (NilEmpty.string_of_uint d)) 0 false = Some (Z.of_N (Pos.of_uint d)).
Proof.
  assert (H : forall p, digits (list_ascii_of_string (NilEmpty.string_of_uint d)) 0 p =
     if (p || negb (match d with Nil => true | _ => false end))%bool then Some (Z.of_N (Pos.of_uint d)) else None).
  { induction d; intros p; [destruct p; reflexivity|..];
    cbn [NilEmpty.string_of_uint list_ascii_of_string digits Pos.of_uint negb]; rewrite orb_true_r;
    try (exact (digits_acc d _)).
    cbn [digit]. change (digits (list_ascii_of_string (NilEmpty.string_of_uint d)) 0 true = Some (Z.of_N (Pos.of_uint d))).
    rewrite IHd. reflexivity. }
  intros Hd. rewrite H. destruct d; try reflexivity. congruence.
Qed.
Lemma uint_head d : exists c s, list_ascii_of_string (NilEmpty.string_of_uint d) = (c :: s)%list /\ (c =? "-")%char = false /\ (c =? "+")%char = false
   \/ d = Nil.
Proof. destruct d; [exists "0"%char, []; now right|..]; cbn; eexists; eexists; left; split; reflexivity || (split; reflexivity). Qed.
Definition numchar (c : ascii) : bool := match digit c with Some _ => true | None => (c =? "-")%char end.
Lemma uint_chars d : forallb numchar (list_ascii_of_string (NilEmpty.string_of_uint d)) = true.
Proof. induction d; cbn; try reflexivity; exact IHd. Qed.
Lemma to_uint_pos p : Pos.to_uint p <> Nil.
Proof.
  intros E. pose proof (DecimalPos.Unsigned.of_to p) as H. rewrite E in H. discriminate.
Qed.
Lemma show_cases z : (exists d, d <> Nil /\ show_Z z = list_ascii_of_string (NilEmpty.string_of_uint d) /\ z = Z.of_N (Pos.of_uint d)) \/
  (exists d, d <> Nil /\ show_Z z = ("-"%char :: list_ascii_of_string (NilEmpty.string_of_uint d))%list /\ z = Z.opp (Z.of_N (Pos.of_uint d))).
Proof.
  destruct z as [|p|p].
  - left. exists (D0 Nil). repeat split; discriminate.
  - left. exists (Pos.to_uint p). split; [apply to_uint_pos|]. split.
    + unfold show_Z. cbn [Z.to_int NilZero.string_of_int]. pose proof (to_uint_pos p). destruct (Pos.to_uint p); try reflexivity. congruence.
    + rewrite DecimalPos.Unsigned.of_to. reflexivity.
  - right. exists (Pos.to_uint p). split; [apply to_uint_pos|]. split.
    + unfold show_Z. cbn [Z.to_int NilZero.string_of_int list_ascii_of_string]. f_equal. pose proof (to_uint_pos p). destruct (Pos.to_uint p); try reflexivity. congruence.
    + rewrite DecimalPos.Unsigned.of_to. reflexivity.
Qed.
Lemma show_chars z : forallb numchar (show_Z z) = true.
Proof.
  destruct (show_cases z) as [(d & _ & -> & _)|(d & _ & -> & _)]; [apply uint_chars|]. cbn. apply uint_chars.
Qed.
Lemma show_nonempty z : show_Z z <> [].
Proof.
  destruct (show_cases z) as [(d & H & -> & _)|(d & _ & -> & _)]; [|discriminate]. destruct d; try discriminate. congruence.
Qed.
Lemma py_int_show z : py_int (show_Z z) = Ok z.
Proof.
  destruct (show_cases z) as [(d & H & -> & ->)|(d & H & -> & ->)].
  - unfold py_int. destruct (uint_head d) as (c & s & [(E & E1 & E2)|E]); [|congruence].
    rewrite E, E1, E2, <- E, digits_uint by exact H. reflexivity.
  - unfold py_int. cbn. rewrite digits_uint by exact H. reflexivity.
Qed.

(** *** words and lines *)
Lemma read_lines_line l rest cur : forallb (fun c => negb ((c =? "010") || (c =? "013"))%char) l = true ->
  read_lines (l ++ "010"%char :: rest) cur = ((cur ++ l) :: read_lines rest [])%list.
Proof.
  revert cur. induction l as [|c l IH]; intros cur H.
  - cbn. now rewrite app_nil_r.
  - cbn [forallb] in H. apply andb_true_iff in H as (H1 & H2). apply negb_true_iff, orb_false_iff in H1 as (Ha & Hb).
    cbn [app read_lines]. rewrite Ha, Hb, IH by exact H2. now rewrite <- app_assoc.
Qed.
Lemma split_space_word w c rest cur : forallb (fun c => negb (is_space c)) w = true -> is_space c = true ->
  (cur ++ w)%list <> [] ->
  split_space (w ++ c :: rest) cur = ((cur ++ w) :: split_space rest [])%list.
Proof.
  revert cur. induction w as [|a w IH]; intros cur H Hc Hn.
  - rewrite app_nil_r in *. cbn. rewrite Hc. destruct cur; [congruence|reflexivity].
  - cbn [forallb] in H. apply andb_true_iff in H as (H1 & H2). apply negb_true_iff in H1.
    cbn [app split_space]. rewrite H1, IH; [now rewrite <- app_assoc|assumption|assumption|]. rewrite <- app_assoc. exact Hn.
Qed.
Lemma split_char_none sep w cur : forallb (fun c => negb (c =? sep)%char) w = true -> split_char sep w cur = [(cur ++ w)%list].
Proof.
  revert cur. induction w as [|a w IH]; intros cur H; [cbn; now rewrite app_nil_r|].
  cbn [forallb] in H. apply andb_true_iff in H as (H1 & H2). apply negb_true_iff in H1. cbn. rewrite H1, IH by exact H2. now rewrite <- app_assoc.
Qed.
Lemma split_char_word sep w rest cur : forallb (fun c => negb (c =? sep)%char) w = true ->
  split_char sep (w ++ sep :: rest) cur = ((cur ++ w) :: split_char sep rest [])%list.
Proof.
  revert cur. induction w as [|a w IH]; intros cur H; [cbn; rewrite app_nil_r, Ascii.eqb_refl; reflexivity|].
  cbn [forallb] in H. apply andb_true_iff in H as (H1 & H2). apply negb_true_iff in H1. cbn. rewrite H1, IH by exact H2. now rewrite <- app_assoc.
Qed.
Lemma numchar_ok c : numchar c = true ->
  is_space c = false /\ (c =? ":")%char = false /\ (c =? "010")%char = false /\ (c =? "013")%char = false.
Proof. destruct c as [[] [] [] [] [] [] [] []]; vm_compute; intros H; try discriminate H; repeat split. Qed.
Lemma forallb_impl {A} (f g : A -> bool) l : (forall x, f x = true -> g x = true) -> forallb f l = true -> forallb g l = true.
Proof. intros H. rewrite !forallb_forall. auto. Qed.

Lemma show_pair_split p : split_char ":" (show_pair p) [] = [show_Z (fst p); show_Z (snd p)].
Proof.
  unfold show_pair. rewrite split_char_word, split_char_none; [reflexivity|..];
    (eapply forallb_impl; [|apply show_chars]); intros c Hc; apply numchar_ok in Hc as (_ & -> & _); reflexivity.
Qed.
Lemma show_pair_chars (f : ascii -> bool) p : (forall c, numchar c = true -> f c = true) -> f ":"%char = true ->
  forallb f (show_pair p) = true.
Proof.
  intros H Hc. unfold show_pair. rewrite forallb_app. cbn [forallb]. rewrite Hc.
  rewrite !(forallb_impl numchar f) by (apply show_chars || exact H). reflexivity.
Qed.
Lemma words_row ps : words (concat (map (fun p => show_pair p ++ [" "%char])%list ps)) = map show_pair ps.
Proof.
  unfold words. induction ps as [|p ps IH]; [reflexivity|]. cbn [map concat].
  rewrite <- app_assoc. cbn [app]. rewrite split_space_word; [cbn [app]; now rewrite IH| |reflexivity|].
  - apply show_pair_chars; [|reflexivity]. intros c Hc. apply numchar_ok in Hc as (-> & _). reflexivity.
  - cbn. unfold show_pair. intros E. apply app_eq_nil in E as (_ & E). discriminate.
Qed.
Lemma readlines_rows rows :
  readlines (show_rows rows) = map (fun ps => concat (map (fun p => show_pair p ++ [" "%char])%list ps)) rows.
Proof.
  unfold readlines, show_rows. induction rows as [|ps rows IH]; [reflexivity|]. cbn [map concat]. unfold show_row at 1.
  rewrite <- app_assoc. cbn [app]. rewrite read_lines_line; [cbn [app]; now rewrite IH|].
  clear. induction ps as [|p ps IH]; [reflexivity|]. cbn [map concat]. rewrite !forallb_app, IH.
  rewrite show_pair_chars; [reflexivity| |reflexivity].
  intros c Hc. apply numchar_ok in Hc as (_ & _ & -> & ->). reflexivity.
Qed.

(** *** load_dexter *)
Section Dexter.
  Context {V : Type} {N : Num V}.

  (** column that an index z (from 1, or counted from the end) means *)
  Definition column (m : nat) (z : Z) : nat := Z.to_nat (if (1 <=? z)%Z then z - 1 else z - 1 + Z.of_nat m).
  Definition fits (m : nat) (p : Z * Z) : Prop :=
    (- Z.of_nat m < fst p <= Z.of_nat m)%Z /\ too_large (snd p) = false.
  Definition cell (m : nat) (ps : list (Z * Z)) (k : nat) (v : V) : V :=
    fold_left (fun a p => if column m (fst p) =? k then nofZ (snd p) else a) ps v.

  Lemma py_index_column m z : (- Z.of_nat m < z <= Z.of_nat m)%Z -> py_index m (z - 1) = Some (column m z).
  Proof.
    intros H. unfold py_index, column.
    destruct (Z.leb_spec 0 (z - 1)), (Z.leb_spec 1 z); try lia; cbn [andb].
    - destruct (Z.ltb_spec (z - 1) (Z.of_nat m)); [reflexivity|lia].
    - destruct (Z.leb_spec (- Z.of_nat m) (z - 1)), (Z.ltb_spec (z - 1) 0); try lia. reflexivity.
  Qed.
  Lemma py_index_none m z : ~ (- Z.of_nat m < z <= Z.of_nat m)%Z -> py_index m (z - 1) = None.
  Proof.
    intros H. unfold py_index.
    destruct (Z.leb_spec 0 (z - 1)), (Z.ltb_spec (z - 1) (Z.of_nat m)), (Z.leb_spec (- Z.of_nat m) (z - 1)), (Z.ltb_spec (z - 1) 0); cbn; try reflexivity; lia.
  Qed.

  Lemma dexter_word_spec row (X : arr2 V) p :
    (row < nrow X -> fits (ncol X) p ->
     exists X', dexter_word row X (show_pair p) = Ok X' /\ nrow X' = nrow X /\ ncol X' = ncol X /\
       forall i k, at2 X' i k = if i =? row then cell (ncol X) [p] k (at2 X i k) else at2 X i k) /\
    (~ (row < nrow X /\ fits (ncol X) p) ->
     exists e, dexter_word row X (show_pair p) = Raise e /\ (e = IndexError \/ e = OverflowError)).
  Proof.
    unfold dexter_word. rewrite show_pair_split, !py_int_show. cbn [bind]. destruct p as [z v]. cbn [fst snd]. split.
    - intros Hr (Hz & Hv). cbn [fst snd] in *. destruct (Nat.leb_spec (nrow X) row); [lia|]. cbn [guard bind].
      rewrite py_index_column, Hv by exact Hz. cbn [guard bind]. eexists. split; [reflexivity|]. cbn [nrow ncol at2].
      split; [reflexivity|]. split; [reflexivity|]. intros i k. unfold cell. cbn [fold_left fst snd].
      destruct (i =? row); [|reflexivity]. cbn [andb]. rewrite (Nat.eqb_sym k). reflexivity.
    - intros H. destruct (Nat.leb_spec (nrow X) row); cbn [guard bind]; [eauto|].
      destruct (Z.le_gt_cases z (Z.of_nat (ncol X))) as [Hu|Hu]; [|rewrite py_index_none by lia; eauto].
      destruct (Z.lt_ge_cases (- Z.of_nat (ncol X)) z) as [Hl|Hl]; [|rewrite py_index_none by lia; eauto].
      rewrite py_index_column by lia. destruct (too_large v) eqn:E; [cbn; eauto|].
      exfalso. apply H. split; [assumption|]. split; cbn; [lia|assumption].
  Qed.

  Lemma dexter_line_spec row ps : forall (X : arr2 V),
    (row < nrow X \/ ps = [] -> Forall (fits (ncol X)) ps ->
     exists X', dexter_line row (map show_pair ps) X = Ok X' /\ nrow X' = nrow X /\ ncol X' = ncol X /\
       forall i k, at2 X' i k = if i =? row then cell (ncol X) ps k (at2 X i k) else at2 X i k) /\
    (~ ((row < nrow X \/ ps = []) /\ Forall (fits (ncol X)) ps) ->
     exists e, dexter_line row (map show_pair ps) X = Raise e /\ (e = IndexError \/ e = OverflowError)).
  Proof.
    induction ps as [|p ps IH]; intros X; cbn [map dexter_line].
    - split.
      + intros _ _. exists X. repeat split. intros i k. destruct (i =? row); reflexivity.
      + intros H. exfalso. apply H. auto.
    - destruct (dexter_word_spec row X p) as (W1 & W2). split.
      + intros [Hr|Hr] HF; [|discriminate]. inversion HF as [|? ? F1 F2]; subst.
        destruct (W1 Hr F1) as (X1 & E1 & R1 & C1 & A1). rewrite E1. cbn [bind].
        destruct (IH X1) as (L1 & _). rewrite R1, C1 in L1. destruct (L1 (or_introl Hr) F2) as (X2 & E2 & R2 & C2 & A2).
        exists X2. split; [exact E2|]. rewrite R2, C2. split; [reflexivity|]. split; [reflexivity|].
        intros i k. rewrite A2, A1. destruct (i =? row) eqn:Ei; reflexivity.
      + intros H. destruct (le_lt_dec (nrow X) row) as [Hr|Hr].
        { destruct W2 as (e & E & He); [lia|]. rewrite E. cbn. eauto. }
        assert (Dec : fits (ncol X) p \/ ~ fits (ncol X) p).
        { unfold fits. destruct (Z_lt_dec (- Z.of_nat (ncol X)) (fst p)), (Z_le_dec (fst p) (Z.of_nat (ncol X)));
            destruct (too_large (snd p)); first [left; split; [lia|reflexivity] | right; intros (? & ?); first [discriminate | lia]]. }
        destruct Dec as [F1|F1].
        * destruct (W1 Hr F1) as (X1 & E1 & R1 & C1 & A1). rewrite E1. cbn [bind].
          destruct (IH X1) as (_ & L2). rewrite R1, C1 in L2. apply L2. intros (_ & F2). apply H. split; [now left|now constructor].
        * destruct W2 as (e & E & He); [tauto|]. rewrite E. cbn. eauto.
  Qed.

  Lemma dexter_lines_spec rows : forall row (X : arr2 V),
    let m := ncol X in
    ((forall r ps, nth_error rows r = Some ps -> (row + r < nrow X \/ ps = []) /\ Forall (fits m) ps) ->
     exists X', dexter_lines row (map (fun ps => concat (map (fun p => show_pair p ++ [" "%char])%list ps)) rows) X = Ok X' /\
       nrow X' = nrow X /\ ncol X' = m /\
       forall i k, at2 X' i k = if row <=? i then cell m (nth (i - row) rows []) k (at2 X i k) else at2 X i k) /\
    (~ (forall r ps, nth_error rows r = Some ps -> (row + r < nrow X \/ ps = []) /\ Forall (fits m) ps) ->
     exists e, dexter_lines row (map (fun ps => concat (map (fun p => show_pair p ++ [" "%char])%list ps)) rows) X = Raise e /\
       (e = IndexError \/ e = OverflowError)).
  Proof.
    induction rows as [|ps rows IH]; intros row X m; cbn [map dexter_lines].
    - split.
      + intros _. exists X. repeat split. intros i k. destruct (row <=? i); [|reflexivity]. destruct (i - row); reflexivity.
      + intros H. exfalso. apply H. intros [|r] ps; discriminate.
    - rewrite words_row. destruct (dexter_line_spec row ps X) as (W1 & W2). fold m in W1, W2. split.
      + intros H. destruct (H 0 ps eq_refl) as (Hr & F). rewrite Nat.add_0_r in Hr.
        destruct (W1 Hr F) as (X1 & E1 & R1 & C1 & A1). rewrite E1. cbn [bind].
        destruct (IH (row + 1) X1) as (L1 & _). cbv zeta in L1. rewrite R1, C1 in L1.
        destruct L1 as (X2 & E2 & R2 & C2 & A2).
        { intros r qs Hq. replace (row + 1 + r) with (row + S r) by lia. exact (H (S r) qs Hq). }
        exists X2. split; [exact E2|]. split; [exact R2|]. split; [exact C2|]. intros i k. rewrite A2, A1.
        destruct (Nat.leb_spec (row + 1) i), (Nat.leb_spec row i); try lia.
        * destruct (Nat.eqb_spec i row); [lia|]. replace (i - row) with (S (i - (row + 1))) by lia. reflexivity.
        * destruct (Nat.eqb_spec i row) as [->|]; [|lia]. rewrite Nat.sub_diag. reflexivity.
        * destruct (Nat.eqb_spec i row); [lia|reflexivity].
      + intros H.
        destruct (dexter_line row (map show_pair ps) X) as [X1|e] eqn:E.
        * assert (Hok : (row < nrow X \/ ps = []) /\ Forall (fits m) ps).
          { destruct (Forall_dec (fits m)) with (l := ps) as [F|F].
            - intros p. unfold fits. destruct (Z_lt_dec (- Z.of_nat m) (fst p)), (Z_le_dec (fst p) (Z.of_nat m));
              destruct (too_large (snd p)); first [left; split; [lia|reflexivity] | right; intros (? & ?); first [discriminate | lia]].
            - split; [|exact F]. destruct (le_lt_dec (nrow X) row) as [Hr|Hr]; [|now left]. right.
              destruct ps; [reflexivity|]. destruct W2 as (e & C & _); [|congruence]. intros ([C|C] & _); [lia|discriminate].
            - exfalso. destruct W2 as (e & C & _); [tauto|congruence]. }
          destruct (W1 (proj1 Hok) (proj2 Hok)) as (X1' & E1 & R1 & C1 & A1). injection E1 as <-. cbn [bind].
          destruct (IH (row + 1) X1) as (_ & L2). cbv zeta in L2. rewrite R1, C1 in L2. apply L2.
          intros H2. apply H. intros [|r] qs Hq.
          -- injection Hq as <-. now rewrite Nat.add_0_r.
          -- replace (row + S r) with (row + 1 + r) by lia. exact (H2 r qs Hq).
        * cbn [bind]. exists e. split; [reflexivity|].
          destruct W2 as (e' & C & He); [|congruence]. intros (Hr & F). destruct (W1 Hr F) as (X1 & C & _). discriminate.
  Qed.

  Lemma cell_last m ps k : k < m -> Forall (fun p => 1 <= fst p <= Z.of_nat m)%Z ps ->
    cell m ps k n0 = nofZ (last_value ps (Z.of_nat k + 1)).
  Proof.
    intros Hk F. unfold cell, last_value. change (@n0 V N) with (nofZ (Num:=N) 0). generalize 0%Z.
    induction F as [|p ps Hp F IH]; intros z; [reflexivity|]. cbn [fold_left].
    replace (column m (fst p) =? k) with (fst p =? Z.of_nat k + 1)%Z.
    - destruct (fst p =? Z.of_nat k + 1)%Z; apply IH.
    - unfold column. destruct (Z.leb_spec 1 (fst p)); [|lia].
      destruct (Z.eqb_spec (fst p) (Z.of_nat k + 1)) as [->|Hne]; symmetry; [apply Nat.eqb_eq; lia|apply Nat.eqb_neq; lia].
  Qed.
End Dexter.
