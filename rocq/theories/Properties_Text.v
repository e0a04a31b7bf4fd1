(** Properties C126-C128: reading the dexter data set, reading the free memory, and
    splitting a matrix into batches. *)
From Coq Require Import String Ascii.
From Coq Require Import ZArith List Arith Lia Bool Reals Lra.
From Verif Require Import Py Num NumT Arr M_IO M_Dist M_Text S_Text P_Text P_Text2 P_Mem2.
Import ListNotations.
Local Open Scope nat_scope.

(* ------------------------------------------------------------------ *)
(** ** C126 (1): load_dexter returns a 300 x 20000 matrix that holds, for every
    object and feature, the value given last in the object's line, and 0 where
    there is none; in every number system. *)
Theorem C126_dexter_vectors :
  forall (V : Type) (N : Num V) (vsum : list V -> V) (L : Type) (classes : L) (rows : list (list (Z * Z))),
    length rows <= 300 ->
    (forall ps p, In ps rows -> In p ps -> (1 <= fst p <= 20000 /\ Z.abs (snd p) < 2 ^ 1023)%Z) ->
    exists D X, load_dexter vsum classes (show_rows rows) = Ok (D, classes, X) /\
      nrow X = 300 /\ Z.of_nat (ncol X) = 20000%Z /\ D = cosine_distance vsum X /\
      forall r c, c < ncol X -> at2 X r c = nofZ (last_value (nth r rows []) (Z.of_nat c + 1)).
Proof.
  intros V N vsum L classes rows Hl H. destruct (load_dexter_spec vsum classes rows) as (S1 & _).
  destruct S1 as (X & E & R & C & A).
  - intros r ps Hr. split; [left; apply Nat.lt_le_trans with (length rows); [apply nth_error_Some; congruence|exact Hl]|].
    apply Forall_forall. intros p Hp. destruct (H ps p (nth_error_In _ _ Hr) Hp) as (H1 & H2). unfold fits. rewrite dims_Z. split; [lia|].
    unfold too_large. apply Z.leb_gt. apply Z.lt_trans with (1 := H2). reflexivity.
  - exists (cosine_distance vsum X), X. split; [exact E|]. split; [exact R|]. split; [rewrite C; apply dims_Z|]. split; [reflexivity|].
    intros r c Hc. rewrite A. apply cell_last; [now rewrite <- C|]. rewrite dims_Z.
    apply Forall_forall. intros p Hp. destruct (nth_in_or_default r rows []) as [Hn|Hn]; [|rewrite Hn in Hp; destruct Hp].
    now apply (H _ p Hn Hp).
Qed.

(** ** C126 (2): which files are accepted: every line after the 300th is empty,
    all features are in -19999 ... 20000, and no value is beyond float64.  All
    others raise IndexError or OverflowError. *)
Theorem C126_dexter_accepted :
  forall (V : Type) (N : Num V) (vsum : list V -> V) (L : Type) (classes : L) (rows : list (list (Z * Z))),
    let accepted := forall r ps, nth_error rows r = Some ps ->
      (r < 300 \/ ps = []) /\
      forall p, In p ps -> (-20000 < fst p <= 20000 /\ Z.abs (snd p) < 2 ^ 1024 - 2 ^ 970)%Z in
    (accepted <-> exists res, load_dexter vsum classes (show_rows rows) = Ok res) /\
    (~ accepted -> exists e, load_dexter vsum classes (show_rows rows) = Raise e /\ (e = IndexError \/ e = OverflowError)).
Proof.
  intros V N vsum L classes rows accepted. destruct (load_dexter_spec vsum classes rows) as (S1 & S2).
  assert (Q : accepted <-> dexter_ok rows).
  { unfold accepted, dexter_ok. split; intros H r ps Hr; destruct (H r ps Hr) as (H1 & H2); (split; [exact H1|]).
    - apply Forall_forall. intros p Hp. destruct (H2 p Hp) as (H3 & H4). unfold fits. rewrite dims_Z. split; [lia|].
      unfold too_large. apply Z.leb_gt. exact H4.
    - intros p Hp. rewrite Forall_forall in H2. destruct (H2 p Hp) as (H3 & H4). rewrite dims_Z in H3. split; [lia|].
      unfold too_large in H4. apply Z.leb_gt in H4. exact H4. }
  split; [|intros H; apply S2; tauto]. rewrite Q. split.
  - intros H. destruct (S1 H) as (X & E & _). eauto.
  - intros (res & E).
    assert (Dec : dexter_ok rows \/ ~ dexter_ok rows).
    { clear. assert (G : forall rows o, (forall r ps, nth_error rows r = Some ps -> (o + r < 300 \/ ps = []) /\ Forall (fits dims) ps) \/
        ~ (forall r ps, nth_error rows r = Some ps -> (o + r < 300 \/ ps = []) /\ Forall (fits dims) ps)).
      { clear rows. induction rows as [|ps rows IH]; intros o; [left; intros [|r] ps; discriminate|].
        assert (F : Forall (fits dims) ps \/ ~ Forall (fits dims) ps).
        { destruct (Forall_dec (fits dims)) with (l := ps) as [F|F]; [|now left|now right].
          intros p. unfold fits. destruct (Z_lt_dec (- Z.of_nat dims) (fst p)), (Z_le_dec (fst p) (Z.of_nat dims)), (too_large (snd p)); (left; repeat split; (assumption || reflexivity)) || (right; intuition congruence). }
        assert (B : (o < 300 \/ ps = []) \/ ~ (o < 300 \/ ps = [])).
        { destruct (lt_dec o 300); [left; now left|]. destruct ps; [left; now right|]. right. intros [?|?]; [lia|discriminate]. }
        destruct F as [F|F]; [|right; intros H; apply F; apply (H 0 ps eq_refl)].
        destruct B as [B|B]; [|right; intros H; apply B; rewrite <- (Nat.add_0_r o) at 1; apply (H 0 ps eq_refl)].
        destruct (IH (Datatypes.S o)) as [I|I].
        - left. intros [|r] qs Hr; [injection Hr as <-; rewrite Nat.add_0_r; auto|].
          rewrite <- Nat.add_succ_comm. apply (I r qs Hr).
        - right. intros H. apply I. intros r qs Hr. rewrite Nat.add_succ_comm. apply (H (Datatypes.S r) qs Hr). }
      apply (G rows 0). }
    destruct Dec as [Dec|Dec]; [exact Dec|]. destruct (S2 Dec) as (e & E' & _). congruence.
Qed.

(** ** C126 (3), DEFECT: a feature number 0 or below is not rejected; its value is
    stored as that of feature 20000, 19999, ..., overwriting what is there. *)
Theorem C126_feature_zero_is_misplaced :
  forall (V : Type) (N : Num V) (vsum : list V -> V) (L : Type) (classes : L) (rows : list (list (Z * Z))),
    length rows <= 300 ->
    (forall ps p, In ps rows -> In p ps -> (-20000 < fst p <= 20000 /\ Z.abs (snd p) < 2 ^ 1023)%Z) ->
    exists D X, load_dexter vsum classes (show_rows rows) = Ok (D, classes, X) /\ Z.of_nat (ncol X) = 20000%Z /\
      forall r c, c < ncol X -> at2 X r c =
        nofZ (last_value (map (fun p => (if (fst p <=? 0)%Z then (fst p + 20000)%Z else fst p, snd p)) (nth r rows [])) (Z.of_nat c + 1)).
Proof.
  intros V N vsum L classes rows Hl H. destruct (load_dexter_spec vsum classes rows) as (S1 & _).
  destruct S1 as (X & E & R & C & A).
  - intros r ps Hr. split; [left; apply Nat.lt_le_trans with (length rows); [apply nth_error_Some; congruence|exact Hl]|].
    apply Forall_forall. intros p Hp. destruct (H ps p (nth_error_In _ _ Hr) Hp) as (H1 & H2). unfold fits. rewrite dims_Z. split; [lia|].
    unfold too_large. apply Z.leb_gt. apply Z.lt_trans with (1 := H2). reflexivity.
  - exists (cosine_distance vsum X), X. split; [exact E|]. split; [rewrite C; apply dims_Z|].
    intros r c Hc. rewrite A. rewrite cell_moved; [now rewrite dims_Z|now rewrite <- C|]. rewrite dims_Z.
    apply Forall_forall. intros p Hp. destruct (nth_in_or_default r rows []) as [Hn|Hn]; [|rewrite Hn in Hp; destruct Hp].
    destruct (H _ p Hn Hp). lia.
Qed.

(** ** C126 (4), DEFECT: an object without features (an empty line, or a file of
    fewer than 300 lines) has distance NaN to every other object. *)
Theorem C126_featureless_object_is_nan :
  forall (L : Type) (classes : L) (rows : list (list (Z * Z))) D cl X r j,
    load_dexter xsum classes (show_rows rows) = Ok (D, cl, X) ->
    nth r rows [] = [] -> r < 300 -> j < 300 -> r <> j -> at2 D r j = XNaN /\ at2 D j r = XNaN.
Proof.
  intros L classes rows D cl X r j E Hr H1 H2 Hne. destruct (load_dexter_spec xsum classes rows) as (S1 & S2).
  assert (Ok' : dexter_ok rows).
  { intros i ps Hi. destruct (proj2 (proj1 (C126_dexter_accepted xr _ xsum L classes rows)) (ex_intro _ _ E) i ps Hi) as (B1 & B2).
    split; [exact B1|]. apply Forall_forall. intros p Hp. destruct (B2 p Hp) as (B3 & B4). unfold fits. rewrite dims_Z. split; [lia|].
    unfold too_large. apply Z.leb_gt. exact B4. }
  destruct (S1 Ok') as (X' & E' & R & C & A). rewrite E' in E. injection E as <- <- <-.
  apply cosine_zero_row; try lia.
  - rewrite C. apply Nat2Z.inj_lt. rewrite dims_Z. lia.
  - intros f. rewrite A, Hr. reflexivity.
Qed.

(** ** C126 (5): the line ends do not matter: line feeds, carriage return and
    line feed, carriage returns, with or without one after the last line. *)
Theorem C126_line_ends :
  forall (V : Type) (N : Num V) (vsum : list V -> V) (L : Type) (classes : L) (s : list ascii),
    ~ In "013"%char s ->
    (forall e, e = ["013"; "010"]%char \/ e = ["013"]%char ->
       load_dexter vsum classes (with_line_ends e s) = load_dexter vsum classes s /\
       read_meminfo (with_line_ends e s) = read_meminfo s) /\
    (s <> [] -> last s " "%char <> "010"%char ->
       load_dexter vsum classes (s ++ ["010"%char]) = load_dexter vsum classes s).
Proof.
  intros V N vsum L classes s Hs. split.
  - intros e He. unfold load_dexter, read_meminfo. now rewrite readlines_ends.
  - intros H1 H2. unfold load_dexter. now rewrite readlines_last.
Qed.
Example C126_line_ends_case : let s := txt ("1:3 2:5" ++ String "010" (String "010" ("4:9 2:-4")))%string in
  ~ In "013"%char s /\ s <> [] /\ last s " "%char <> "010"%char /\
  length (readlines (with_line_ends ["013"; "010"]%char s)) = 3 /\
  (exists D X, load_dexter xsum tt (with_line_ends ["013"; "010"]%char s) = Ok (D, tt, X) /\ at2 X 2 3 = XFin 9).
Proof.
  cbv zeta. split; [vm_compute; intuition discriminate|]. split; [discriminate|]. split; [vm_compute; discriminate|].
  split; [vm_compute; reflexivity|].
  rewrite (proj1 (proj1 (C126_line_ends xr _ xsum unit tt (txt ("1:3 2:5" ++ String "010" (String "010" ("4:9 2:-4")))%string)
    ltac:(vm_compute; intuition discriminate)) ["013"; "010"]%char (or_introl eq_refl))).
  eexists. eexists. split; [reflexivity|]. cbn. reflexivity.
Qed.

Definition exrows : list (list (Z * Z)) := [[(1, 3); (20000, 5); (1, 7)]; []; [(0, 9); (2, -4)]]%Z.
Example C126_case :
  show_rows exrows = txt ("1:3 20000:5 1:7 " ++ String "010" (String "010" ("0:9 2:-4 " ++ String "010" "")))%string /\
  length exrows <= 300 /\
  (forall ps p, In ps exrows -> In p ps -> (-20000 < fst p <= 20000 /\ Z.abs (snd p) < 2 ^ 1023)%Z) /\
  (exists D X, load_dexter xsum tt (show_rows exrows) = Ok (D, tt, X) /\ at2 X 0 0 = XFin 7 /\
     at2 X 2 (Z.to_nat 19999) = XFin 9 /\ at2 X 2 1 = XFin (-4) /\ at2 D 1 0 = XNaN /\ at2 D 299 0 = XNaN) /\
  (exists e, load_dexter xsum tt (show_rows [[(20001, 1)]%Z]) = Raise e).
Proof.
  split; [vm_compute; reflexivity|]. split; [cbn; lia|].
  assert (H : forall ps p, In ps exrows -> In p ps -> (-20000 < fst p <= 20000 /\ Z.abs (snd p) < 2 ^ 1023)%Z).
  { intros ps p [<- | [<- | [<- | []]]]; cbn [In]; intros Hp.
    - destruct Hp as [<- | [<- | [<- | []]]]; cbn [fst snd]; (split; [lia|reflexivity]).
    - destruct Hp.
    - destruct Hp as [<- | [<- | []]]; cbn [fst snd]; (split; [lia|reflexivity]). }
  split; [exact H|]. split.
  - destruct (C126_feature_zero_is_misplaced xr _ xsum unit tt exrows ltac:(cbn; lia) H) as (D & X & E & C & A).
    exists D, X. split; [exact E|]. rewrite !A by (apply Nat2Z.inj_lt; rewrite C; vm_compute; reflexivity).
    split; [reflexivity|]. split; [reflexivity|]. split; [reflexivity|]. split.
    + apply (C126_featureless_object_is_nan unit tt exrows D tt X 1 0 E); [reflexivity|lia|lia|lia].
    + apply (C126_featureless_object_is_nan unit tt exrows D tt X 299 0 E); [reflexivity|lia|lia|lia].
  - destruct (C126_dexter_accepted xr _ xsum unit tt [[(20001, 1)]%Z]) as (_ & R).
    destruct R as (e & E & _); [|eauto]. intros H'. destruct (H' 0 _ eq_refl) as (_ & H''). destruct (H'' _ (or_introl eq_refl)). cbn in *. lia.
Qed.

(* ------------------------------------------------------------------ *)
(** ** C127 (1): FreeMemLinux reports the numbers of certain line positions of
    /proc/meminfo, in the unit asked for; in exact arithmetic. *)
Theorem C127_values_by_position :
  forall (es : list mem_entry) (u : string) (f : R),
    mem_names es -> 21 <= length es ->
    (u = "kB"%string /\ f = 1%R) \/ (u = "k"%string /\ f = 1024%R) \/ (u = "MB"%string /\ f = (1 / 1024)%R) \/
    (u = "GB"%string /\ f = (1 / 1024 / 1024)%R) \/ (u = "%"%string /\ mem_value es 0 <> 0%Z /\ f = (100 / IZR (mem_value es 0))%R) ->
    let v i := IZR (mem_value es i) in
    exists o, FreeMemLinux (V:=xr) (show_meminfo es) u = Ok o /\
      fm_total o = XFin (f * v 0) /\ fm_used o = XFin (f * (v 0 - v 1)) /\
      fm_used_real o = XFin (f * (v 0 - v 1 - v 2 - v 3)) /\ fm_user_free o = XFin (f * (v 1 + v 2 + v 3)) /\
      fm_buffers o = XFin (f * v 2) /\ fm_cached o = XFin (f * v 3) /\
      fm_swap o = XFin (f * v 14) /\ fm_swap_free o = XFin (f * v 15) /\ fm_swap_used o = XFin (f * (v 14 - v 15)) /\
      fm_shared o = fm_used o.
Proof.
  intros es u f Hn Hl Hu v. unfold FreeMemLinux. rewrite read_meminfo_spec by exact Hn.
  destruct (Nat.leb_spec (length es) 20); [lia|]. cbn [bind mi_tot].
  assert (F : mem_factor (V:=xr) u (mem_value es 0) = Ok (XFin f)).
  { assert (D : forall x, ndiv (XFin x) (XFin 1024) = XFin (x / 1024)).
    { intros x. cbn. destruct (Req_EM_T 1024 0); [lra|reflexivity]. }
    destruct Hu as [(-> & ->)|[(-> & ->)|[(-> & ->)|[(-> & ->)|(-> & Hz & ->)]]]].
    - reflexivity.
    - reflexivity.
    - change (Ok (ndiv (XFin 1) (XFin 1024)) = Ok (XFin (1 / 1024))). now rewrite D.
    - change (Ok (ndiv (ndiv (XFin 1) (XFin 1024)) (XFin 1024)) = Ok (XFin (1 / 1024 / 1024))). now rewrite !D.
    - unfold mem_factor. cbn [String.eqb Ascii.eqb Bool.eqb]. rewrite (proj2 (Z.eqb_neq _ 0)) by exact Hz. cbn [guard bind].
      change (nofZ (mem_value es 0)) with (XFin (IZR (mem_value es 0))). cbn.
      destruct (Req_EM_T (IZR (mem_value es 0)) 0) as [E|E]; [apply eq_IZR in E; congruence|]. cbn. do 2 f_equal. field. exact E. }
  rewrite F. cbn [bind]. eexists. split; [reflexivity|]. unfold v.
  unfold fm_total, fm_used, fm_used_real, fm_user_free, fm_buffers, fm_cached, fm_swap, fm_swap_free, fm_swap_used, fm_shared.
  cbn [fm_convert fm_info mi_tot mi_free mi_buff mi_cached mi_swapt mi_swapf mi_swapu].
  assert (M : forall z r, IZR z = r -> nmul (XFin f) (nofZ z) = XFin (f * r)) by (intros z r <-; reflexivity).
  repeat split; try (apply M; rewrite ?plus_IZR, ?minus_IZR; reflexivity).
Qed.

(** ** C127 (2): otherwise it raises: a file with fewer than 21 lines (IndexError),
    a percentage of no memory (ZeroDivisionError), a unit it does not know. *)
Theorem C127_raises :
  forall (V : Type) (N : Num V) (es : list mem_entry) (u : string),
    mem_names es ->
    (length es <= 20 -> FreeMemLinux (V:=V) (show_meminfo es) u = Raise IndexError) /\
    (21 <= length es -> mem_value es 0 = 0%Z -> FreeMemLinux (V:=V) (show_meminfo es) "%" = Raise ZeroDivisionError) /\
    (~ In u ["kB"; "k"; "MB"; "GB"; "%"]%string -> exists e, FreeMemLinux (V:=V) (show_meminfo es) u = Raise e).
Proof.
  intros V N es u Hn. unfold FreeMemLinux. rewrite read_meminfo_spec by exact Hn.
  destruct (Nat.leb_spec (length es) 20); (split; [intros H1|split; [intros H1 H2|intros H1]]); try lia; try reflexivity.
  - eexists. reflexivity.
  - cbn [bind mi_tot]. rewrite H2. reflexivity.
  - cbn [bind mi_tot]. exists AssertionError. unfold mem_factor.
    repeat (match goal with |- context [String.eqb u ?s] => destruct (String.eqb_spec u s); [subst; exfalso; apply H1; cbn; tauto|] end). reflexivity.
Qed.

(** ** C127 (3), DEFECT: names are ignored, so where line 3 is not "Buffers" but
    "MemAvailable" (every Linux kernel since 3.14), the memory that is available is
    added to the memory that is free, and reported as "buffers"; the "free" memory
    then exceeds the memory there is for every machine that has more than half of
    its memory free. *)
Theorem C127_available_counted_as_buffers :
  forall (es : list mem_entry) (o : free_mem xr),
    mem_names es -> FreeMemLinux (V:=xr) (show_meminfo es) "kB" = Ok o ->
    fst (nth 1 es ([], (0, 0%Z))) = txt "MemFree" -> fst (nth 2 es ([], (0, 0%Z))) = txt "MemAvailable" ->
    let total := IZR (mem_value es 0) in let free := IZR (mem_value es 1) in let available := IZR (mem_value es 2) in
    (0 <= IZR (mem_value es 3))%R ->
    fm_buffers o = XFin available /\
    (exists x, fm_user_free o = XFin x /\ (x >= free + available)%R /\
       ((free > total / 2 -> available >= free -> x > total)%R)).
Proof.
  intros es o Hn Ho _ _ total free available H3.
  assert (Hl : 21 <= length es).
  { destruct (le_lt_dec 21 (length es)) as [?|Hlt]; [assumption|]. rewrite (proj1 (C127_raises xr _ es "kB" Hn)) in Ho by lia. discriminate. }
  destruct (C127_values_by_position es "kB" 1 Hn Hl (or_introl (conj eq_refl eq_refl))) as (o' & E & _ & _ & _ & F & B & _).
  rewrite Ho in E. injection E as <-. split; [rewrite B; f_equal; unfold available; ring|].
  eexists. split; [exact F|]. fold free available. split; lra.
Qed.

Definition mem_file (a b c d : Z) : list mem_entry :=
  [(txt "MemTotal", (6, a)); (txt "MemFree", (7, b)); (txt "MemAvailable", (2, c)); (txt "Buffers", (8, d))] ++
  repeat (txt "Cached", (3, 100%Z)) 10 ++ [(txt "SwapTotal", (0, 2000%Z)); (txt "SwapFree", (0, 1500%Z))] ++ repeat (txt "Dirty", (3, 0%Z)) 8.
Lemma mem_file_names a b c d : mem_names (mem_file a b c d).
Proof.
  intros e He. unfold mem_file in He. apply in_app_iff in He as [He|He]; [|apply in_app_iff in He as [He|He]; [|apply in_app_iff in He as [He|He]]].
  - destruct He as [<- | [<- | [<- | [<- | []]]]]; reflexivity.
  - apply repeat_spec in He as ->. reflexivity.
  - destruct He as [<- | [<- | []]]; reflexivity.
  - apply repeat_spec in He as ->. reflexivity.
Qed.
Example C127_case :
  mem_names (mem_file 16000 10000 12000 500) /\ length (mem_file 16000 10000 12000 500) = 24 /\
  firstn 24 (show_meminfo (mem_file 16000 10000 12000 500)) = txt ("MemTotal:       16000 kB")%string /\
  exists o, FreeMemLinux (V:=xr) (show_meminfo (mem_file 16000 10000 12000 500)) "kB" = Ok o /\
    fm_user_free o = XFin 22500 /\ fm_total o = XFin 16000 /\ fm_swap_used o = XFin 500.
Proof.
  split; [apply mem_file_names|]. split; [reflexivity|]. split; [vm_compute; reflexivity|].
  destruct (C127_values_by_position (mem_file 16000 10000 12000 500) "kB" 1 (mem_file_names _ _ _ _) ltac:(cbn; lia) (or_introl (conj eq_refl eq_refl)))
    as (o & E & T & _ & _ & F & _ & _ & _ & _ & U & _).
  exists o. split; [exact E|]. rewrite T, F, U. cbn [mem_value mem_file nth fst snd app repeat].
  repeat split; f_equal; unfold mem_value, mem_file; cbn [nth app repeat snd]; lra.
Qed.

(* ------------------------------------------------------------------ *)
(** ** C128: matrix_split, as computed in float64, gives exactly the integer
    quotients: with free = 1024 (line 2 + line 3 + line 4) bytes, the number of rows
    per batch is floor(free / (cols * elem_size * nr_matrices)) and the number of
    batches is rows divided by that, rounded up.  So all rows are covered, no
    batch is empty, and what is held at one time needs at most [free] bytes. *)
Theorem C128_matrix_split_float :
  forall (es : list mem_entry) (rows cols size copies : nat),
    mem_names es -> 21 <= length es ->
    let free := (1024 * (mem_value es 1 + mem_value es 2 + mem_value es 3))%Z in
    (0 <= free <= 2 ^ 51)%Z -> (Z.of_nat rows <= 2 ^ 51)%Z ->
    (1 <= Z.of_nat cols <= 2 ^ 53)%Z -> (1 <= Z.of_nat size <= 2 ^ 53)%Z -> (1 <= Z.of_nat copies <= 2 ^ 53)%Z ->
    let need := (Z.of_nat cols * Z.of_nat size * Z.of_nat copies)%Z in
    ((free < need)%Z -> matrix_split_f64 (show_meminfo es) rows cols size copies = Raise ZeroDivisionError) /\
    ((need <= free)%Z -> exists nb nr, matrix_split_f64 (show_meminfo es) rows cols size copies = Ok (nb, nr) /\
       (nr = free / need)%Z /\ (nr * nb >= Z.of_nat rows)%Z /\ (nr * (nb - 1) < Z.of_nat rows \/ Z.of_nat rows = 0 /\ nb = 0)%Z /\
       (nr * need <= free < (nr + 1) * need)%Z).
Proof.
  intros es rows cols size copies Hn Hl free Hf Hr Hc Hs Hk need.
  assert (Hm := read_meminfo_spec es Hn). destruct (Nat.leb_spec (length es) 20); [lia|].
  rewrite (matrix_split_exact _ _ rows cols size copies Hm) by (cbn [mi_free mi_buff mi_cached]; fold free; lia).
  cbn [mi_free mi_buff mi_cached]. fold free. unfold matrix_split, guard.
  rewrite (proj2 (Nat.eqb_neq cols 0)), (proj2 (Nat.eqb_neq size 0)), (proj2 (Nat.eqb_neq copies 0)) by lia. cbn [orb bind].
  set (q := Z.to_nat free / cols / size / copies).
  assert (Pn : (0 < need)%Z) by (unfold need; nia).
  assert (Eq : Z.of_nat q = (free / need)%Z).
  { unfold q, need. rewrite !divZ, Z2Nat.id by lia. rewrite !Z.div_div by nia. f_equal. ring. }
  pose proof (Z.mul_div_le free need Pn) as B1. pose proof (Z.mul_succ_div_gt free need Pn) as B2. rewrite <- Eq in B1, B2. split.
  - intros Hlt. assert (Q0 : q = 0) by (apply Nat2Z.inj; rewrite Eq; apply Z.div_small; split; [apply Hf|exact Hlt]). rewrite Q0. reflexivity.
  - intros Hge. assert (Q1 : q <> 0) by (intros Q0; rewrite Q0 in B2; change (Z.succ (Z.of_nat 0)) with 1%Z in B2; lia). rewrite (proj2 (Nat.eqb_neq q 0)) by exact Q1.
    cbn [bind]. eexists. eexists. split; [reflexivity|]. split; [exact Eq|].
    pose proof (Nat.div_mod (rows + q - 1) q Q1) as D1. pose proof (Nat.mod_upper_bound (rows + q - 1) q Q1) as D2.
    set (nb := (rows + q - 1) / q) in *. set (md := (rows + q - 1) mod q) in *.
    assert (D3 : (Z.of_nat rows + Z.of_nat q - 1 = Z.of_nat q * Z.of_nat nb + Z.of_nat md)%Z) by lia.
    split; [lia|]. split; [|lia].
    destruct (Nat.eq_dec rows 0) as [R0|R0]; [right|left; lia]. split; [lia|]. unfold nb. rewrite R0, Nat.div_small by lia. reflexivity.
Qed.

(** ** C128, DEFECT: through C127 the batches exceed the memory: a machine with
    16 GB, of which 10 GB are free, is given batches of 23 GB. *)
Theorem C128_batches_exceed_memory :
  exists (es : list mem_entry) (rows cols size copies : nat) (nb nr : Z),
    mem_names es /\ fst (nth 2 es ([], (0, 0%Z))) = txt "MemAvailable" /\
    matrix_split_f64 (show_meminfo es) rows cols size copies = Ok (nb, nr) /\
    (nr * (Z.of_nat cols * Z.of_nat size * Z.of_nat copies) > 1024 * mem_value es 0)%Z.
Proof.
  exists (mem_file 16000000 10000000 12000000 500000), 100000, 10000, 8, 4, 2%Z, 72000%Z.
  split; [apply mem_file_names|]. split; [reflexivity|]. split; [|reflexivity].
  vm_compute. reflexivity.
Qed.

Example C128_case :
  mem_names (mem_file 16000000 10000000 12000000 500000) /\
  matrix_split_f64 (show_meminfo (mem_file 1000 7 8 9)) 1000 7 3 2 = Ok (2, 585)%Z /\
  matrix_split_f64 (show_meminfo (mem_file 1000 7 8 9)) 1000 7000 8 2 = Raise ZeroDivisionError.
Proof. split; [apply mem_file_names|]. split; vm_compute; reflexivity. Qed.

Print Assumptions C126_dexter_vectors.
Print Assumptions C126_dexter_accepted.
Print Assumptions C126_feature_zero_is_misplaced.
Print Assumptions C126_featureless_object_is_nan.
Print Assumptions C127_values_by_position.
Print Assumptions C127_raises.
Print Assumptions C127_available_counted_as_buffers.
Print Assumptions C128_matrix_split_float.
Print Assumptions C128_batches_exceed_memory.
Print Assumptions C126_line_ends.
