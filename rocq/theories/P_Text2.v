(** Proofs about /proc/meminfo and load_dexter. *)
From Coq Require Import String Ascii.
From Coq Require Import ZArith List Arith Lia Bool Reals.
From Verif Require Import Py Num NumT Arr M_IO M_Dist M_Text S_Text P_Text P_NICDM.
Import ListNotations.
Local Open Scope nat_scope.

Definition show_line (e : mem_entry) : list ascii :=
  (fst e ++ ":"%char :: repeat " "%char (S (fst (snd e))) ++ show_Z (snd (snd e)) ++ [" "; "k"; "B"]%char)%list.
Lemma show_entry_line e : show_entry e = (show_line e ++ ["010"%char])%list.
Proof. unfold show_entry, show_line. rewrite <- !app_assoc. cbn [app]. rewrite <- !app_assoc. reflexivity. Qed.
Lemma blank_space c : blank c = is_space c.
Proof. reflexivity. Qed.
Lemma not_space_not_newline c : is_space c = false -> (c =? "010")%char = false /\ (c =? "013")%char = false.
Proof. destruct c as [[] [] [] [] [] [] [] []]; vm_compute; intros H; try discriminate H; repeat split. Qed.
Lemma readlines_meminfo es : mem_names es -> readlines (show_meminfo es) = map show_line es.
Proof.
  unfold readlines, show_meminfo. intros H. induction es as [|e es IH]; [reflexivity|]. cbn [map concat].
  rewrite show_entry_line, <- app_assoc. cbn [app]. rewrite read_lines_line.
  - cbn [app]. rewrite IH; [reflexivity|]. intros e' He'. apply H. now right.
  - unfold show_line. rewrite forallb_app. cbn [forallb].
    rewrite (forallb_impl (fun c => negb (blank c)) (fun c => negb ((c =? "010") || (c =? "013"))%char));
      [|intros c Hc; apply negb_true_iff, not_space_not_newline in Hc as (-> & ->); reflexivity|apply H; now left].
    rewrite !forallb_app.
    rewrite (forallb_impl numchar _ (show_Z _)); [|intros c Hc; apply numchar_ok in Hc as (_ & _ & -> & ->); reflexivity|apply show_chars].
    assert (R : forall n, forallb (fun c => negb ((c =? "010") || (c =? "013"))%char) (repeat " "%char n) = true) by (induction n; cbn; auto).
    rewrite R. reflexivity.
Qed.
Lemma split_blanks n s : split_space (repeat " "%char n ++ s) [] = split_space s [].
Proof. induction n; [reflexivity|]. cbn [repeat app split_space]. exact IHn. Qed.
Lemma words_line e : forallb (fun c => negb (blank c)) (fst e) = true ->
  words (show_line e) = [(fst e ++ [":"%char])%list; show_Z (snd (snd e)); ["k"; "B"]%char].
Proof.
  intros H. unfold words, show_line.
  replace (fst e ++ ":"%char :: repeat " "%char (S (fst (snd e))) ++ show_Z (snd (snd e)) ++ [" "; "k"; "B"]%char)%list
    with ((fst e ++ [":"%char]) ++ " "%char :: repeat " "%char (fst (snd e)) ++ show_Z (snd (snd e)) ++ [" "; "k"; "B"]%char)%list
    by (rewrite <- app_assoc; reflexivity).
  rewrite split_space_word; [| |reflexivity|intros E; cbn in E; apply app_eq_nil in E as (_ & E); discriminate].
  - cbn [app]. rewrite split_blanks.
    rewrite split_space_word; [reflexivity| |reflexivity|cbn; apply show_nonempty].
    eapply forallb_impl; [|apply show_chars]. intros c Hc. apply numchar_ok in Hc as (-> & _). reflexivity.
  - rewrite forallb_app. cbn [forallb]. rewrite (forallb_impl (fun c => negb (blank c)) _ (fst e)); [reflexivity| |exact H]. auto.
Qed.
Lemma line_number_mem es i : mem_names es ->
  line_number (map show_line es) i = if i <? length es then Ok (mem_value es i) else Raise IndexError.
Proof.
  intros H. unfold line_number. rewrite nth_error_map. destruct (nth_error es i) as [e|] eqn:E; cbn [option_map].
  - assert (i < length es) by (apply nth_error_Some; congruence). destruct (Nat.ltb_spec i (length es)); [|lia].
    rewrite words_line by (apply H; eapply nth_error_In; eauto). cbn [nth_error]. rewrite py_int_show.
    unfold mem_value. now rewrite (nth_error_nth _ _ _ E).
  - apply nth_error_None in E. destruct (Nat.ltb_spec i (length es)); [lia|reflexivity].
Qed.
Lemma read_meminfo_spec es : mem_names es ->
  read_meminfo (show_meminfo es) =
  if length es <=? 20 then Raise IndexError
  else Ok (MemInfo (mem_value es 0) (mem_value es 1) (mem_value es 2) (mem_value es 3) (mem_value es 20)
                   (mem_value es 14) (mem_value es 15) (mem_value es 14 - mem_value es 15)).
Proof.
  intros H. unfold read_meminfo. rewrite readlines_meminfo by exact H. rewrite !line_number_mem by exact H.
  destruct (Nat.leb_spec (length es) 20) as [L|L].
  - destruct (Nat.ltb_spec 20 (length es)); [lia|].
    repeat (match goal with |- context [?a <? length es] => destruct (a <? length es); cbn [bind]; [|reflexivity] end). reflexivity.
  - repeat (match goal with |- context [?a <? length es] => destruct (Nat.ltb_spec a (length es)); [|lia]; cbn [bind] end). reflexivity.
Qed.

(** *** load_dexter *)
Section Dexter.
  Context {V : Type} {N : Num V}.
  Variable vsum : list V -> V.
  Definition dims := 20000.
  Lemma dims_Z : Z.of_nat dims = 20000%Z. Proof. vm_compute. reflexivity. Qed.

  Definition dexter_ok (rows : list (list (Z * Z))) : Prop :=
    forall r ps, nth_error rows r = Some ps -> (r < 300 \/ ps = []) /\ Forall (fits dims) ps.

  Lemma load_dexter_spec {L} (classes : L) rows :
    (dexter_ok rows -> exists X, load_dexter vsum classes (show_rows rows) = Ok (cosine_distance vsum X, classes, X) /\
       nrow X = 300 /\ ncol X = dims /\ forall i k, at2 X i k = cell dims (nth i rows []) k n0) /\
    (~ dexter_ok rows -> exists e, load_dexter vsum classes (show_rows rows) = Raise e /\ (e = IndexError \/ e = OverflowError)).
  Proof.
    unfold load_dexter. rewrite readlines_rows. destruct (dexter_lines_spec rows 0 (full2 300 dims n0)) as (S1 & S2).
    cbn [full2 nrow ncol at2 Nat.add] in S1, S2. split.
    - intros H. destruct (S1 H) as (X & E & R & C & A). exists X. unfold dims in *. rewrite E. cbn [bind].
      repeat split; try assumption. intros i k. rewrite A. cbn [Nat.leb]. now rewrite Nat.sub_0_r.
    - intros H. destruct (S2 H) as (e & E & He). exists e. unfold dims in *. rewrite E. auto.
  Qed.

  (** columns 0 and below are written to the last columns *)
  Lemma cell_moved m ps k : k < m -> Forall (fun p => - Z.of_nat m < fst p <= Z.of_nat m)%Z ps ->
    cell m ps k n0 = nofZ (last_value (map (fun p => (if (fst p <=? 0)%Z then fst p + Z.of_nat m else fst p, snd p)%Z) ps) (Z.of_nat k + 1)).
  Proof.
    intros Hk F. rewrite <- (cell_last m) ; [|exact Hk|].
    - unfold cell. generalize (@n0 V N). induction F as [|p ps Hp F IH]; intros z; [reflexivity|]. cbn [map fold_left fst snd].
      replace (column m (if (fst p <=? 0)%Z then fst p + Z.of_nat m else fst p)%Z) with (column m (fst p)); [apply IH|].
      unfold column. destruct (Z.leb_spec (fst p) 0), (Z.leb_spec 1 (fst p)); try lia.
      destruct (Z.leb_spec 1 (fst p + Z.of_nat m)); [|lia]. f_equal. lia.
    - clear Hk. induction F as [|p ps Hp F IH]; [constructor|]. cbn [map]. constructor; [|exact IH]. cbn [fst].
      destruct (Z.leb_spec (fst p) 0); lia.
  Qed.
End Dexter.

(** *** the cosine distance to a zero row *)
Lemma cosine_zero_row (X : arr2 xr) i j : i <> j -> 0 < ncol X -> i < nrow X -> j < nrow X ->
  (forall f, at2 X i f = XFin 0%R) ->
  at2 (cosine_distance xsum X) i j = XNaN /\ at2 (cosine_distance xsum X) j i = XNaN.
Proof.
  intros Hij Hc Hi Hj Hz.
  assert (XN : nsqrt (xsum (map (fun f => nmul (at2 X i f) (at2 X i f)) (seq 0 (ncol X)))) = XFin 0%R).
  { replace (xsum (map (fun f => nmul (at2 X i f) (at2 X i f)) (seq 0 (ncol X)))) with (XFin 0%R).
    - cbn. destruct (Rlt_dec 0%R 0%R) as [H|H]; [exfalso; revert H; apply Rlt_irrefl|]. now rewrite sqrt_0.
    - generalize (seq 0 (ncol X)). induction l as [|f l IH]; [reflexivity|]. cbn [map].
      change (XFin 0%R = xadd (nmul (at2 X i f) (at2 X i f)) (xsum (map (fun f => nmul (at2 X i f) (at2 X i f)) l))).
      rewrite <- IH, Hz. cbn. f_equal. ring. }
  assert (Q : forall f, ndiv (at2 X i f) (XFin 0%R) = XNaN).
  { intros f. rewrite Hz. cbn. destruct (Req_EM_T 0 0) as [_|H]; [|congruence]. unfold rsgn.
    destruct (Rlt_dec 0 0) as [H|_]; [exfalso; revert H; apply Rlt_irrefl|]. reflexivity. }
  assert (M : forall a, nmul XNaN a = XNaN /\ nmul a XNaN = XNaN) by (intros []; split; reflexivity).
  assert (D1 : forall u, vdot xsum (ncol X) (fun f => ndiv (at2 X i f) (XFin 0%R)) u = XNaN /\ vdot xsum (ncol X) u (fun f => ndiv (at2 X i f) (XFin 0%R)) = XNaN).
  { intros u. unfold vdot. split; apply xsum_nan; apply in_map_iff; exists 0; (split; [rewrite Q; apply M|apply in_seq; lia]). }
  unfold cosine_distance. cbn [zip2 triu1 transpose mask_value at2 nrow ncol].
  rewrite XN. rewrite !(proj1 (D1 _)), !(proj2 (D1 _)).
  change (nsub n1 XNaN) with XNaN. change (nlt XNaN n0) with false. cbv iota.
  destruct (Nat.ltb_spec i j), (Nat.ltb_spec j i); try lia; split; reflexivity.
Qed.

(** line ends *)
Lemma readlines_ends e s : (e = ["013"; "010"]%char \/ e = ["013"]%char) -> ~ In "013"%char s ->
  readlines (with_line_ends e s) = readlines s.
Proof.
  intros He. unfold readlines. generalize (@nil ascii) as cur. induction s as [|c s IH]; intros cur Hs; [reflexivity|].
  assert (Hs' : ~ In "013"%char s) by (intros H; apply Hs; now right).
  assert (Hc : (c =? "013")%char = false) by (apply Ascii.eqb_neq; intros ->; apply Hs; now left).
  unfold with_line_ends. cbn [flat_map]. fold (with_line_ends e s). cbn [read_lines].
  destruct (c =? "010")%char eqn:E.
  - destruct He as [-> | ->].
    + cbn. now rewrite IH.
    + cbn [app read_lines]. change ("013" =? "010")%char with false. change ("013" =? "013")%char with true. cbv iota.
      rewrite <- IH by exact Hs'. destruct s as [|d s]; [reflexivity|].
      unfold with_line_ends. cbn [flat_map]. destruct (d =? "010")%char eqn:Ed; cbn [app]; [reflexivity|].
      now rewrite Ed.
  - cbn [app read_lines]. rewrite E, Hc. now apply IH.
Qed.
Lemma readlines_last s : s <> [] -> last s " "%char <> "010"%char -> ~ In "013"%char s ->
  readlines (s ++ ["010"%char]) = readlines s.
Proof.
  unfold readlines. intros Hne Hl Hs.
  assert (G : forall s cur, (s = [] -> cur <> []) -> last s " "%char <> "010"%char -> ~ In "013"%char s ->
    read_lines (s ++ ["010"%char]) cur = read_lines s cur).
  { clear. induction s as [|c s IH]; intros cur Hne Hl Hs.
    - cbn. destruct cur; [now destruct (Hne eq_refl)|reflexivity].
    - assert (Hs' : ~ In "013"%char s) by (intros H; apply Hs; now right).
      assert (Hc : (c =? "013")%char = false) by (apply Ascii.eqb_neq; intros ->; apply Hs; now left).
      assert (Hl' : last s " "%char <> "010"%char) by (destruct s; [discriminate|exact Hl]).
      cbn [app read_lines]. destruct (c =? "010")%char eqn:E.
      + rewrite IH; auto. intros ->. apply Ascii.eqb_eq in E. subst c. now contradiction Hl.
      + rewrite Hc. apply IH; auto. intros _. now destruct cur. }
  apply G; auto.
Qed.
