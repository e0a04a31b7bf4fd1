(** C170: mp_dissim called from several threads of one process. *)
From Coq Require Import String.
From Coq Require Import ZArith Reals Lra Lia List Arith Bool.
From Verif Require Import Py Num NumT NumPow Arr Sort Conc S_Centering M_IO M_SNN M_MPDissim S_MPDissim P_Vec P_DSL P_MPDissim P_MPDissim2 P_MPDissim3 P_MPDissim4 P_ApproxANN
  Properties_MPDissim M_MPThreads S_MPThreads P_MPThreads P_MPThreads2 P_MPThreads3.
Import ListNotations.
Local Open Scope nat_scope.

(** ** calls that do not overlap *)
(** Whatever calls came before (successful or not), in whichever order: a call
    that nobody disturbs returns what it would return as the only call ever. *)
Theorem C170_one_at_a_time :
  forall V (N : Num V) vpow part g cs s, one_by_one vpow part (begin g cs) s ->
  forall c r, In (c, Done r) (snd s) -> returns vpow part c r.
Proof.
  intros V N vpow part g cs s H c r Hin. exact (one_by_one_inv vpow part _ _ H g cs eq_refl c (Done r) Hin).
Qed.
(** and every outcome of the single call is possible then *)
Theorem C170_every_outcome :
  forall V (N : Num V) vpow part g pre c post r, returns vpow part c r ->
  (forall x, In x (pre ++ post) -> idle x) ->
  exists g', one_by_one vpow part (g, pre ++ (c, Start) :: post) (g', pre ++ (c, Done r) :: post).
Proof.
  intros V N vpow part g pre c post r H HI. destruct (outcome_runs vpow part c g r H) as (g' & M). exists g'. apply msteps_one; assumption.
Qed.

(** ** calls that overlap *)
(** Calls whose bins are made of the same data, under every schedule: bins of
    equal width, or bins of equal mass whose positions end with the last object
    by themselves.  The first data sets, [p] and the numbers of workers may differ. *)
Theorem C170_same_bins :
  forall V (N : Num V) vpow part g cs s, ssteps vpow part (begin g cs) s ->
  (forall c c', In c cs -> In c' cs -> same_bins c c') ->
  (forall c, In c cs -> String.prefix (c_bin c) "mass" = false \/
     (nrow (call_Y c) - 1) mod (nrow (call_Y c) / Z.to_nat (c_bins c)) = 0) ->
  forall c r, In (c, Done r) (snd s) -> returns vpow part c r.
Proof.
  intros V N vpow part g cs s H SB NA c r Hin.
  destruct (same_bins_inv vpow part _ _ H g cs eq_refl SB NA) as [_ I]. exact (I c (Done r) Hin).
Qed.

(** What holds under every schedule of any calls: the shape of the result and the
    kinds of exceptions. *)
Theorem C170_any_schedule :
  forall V (N : Num V) vpow part g cs s, ssteps vpow part (begin g cs) s ->
  forall c r, In (c, Done r) (snd s) ->
  match r with
  | Ok D => nrow D = nrow (c_X c) /\ ncol D = nrow (call_Y c)
  | Raise e => In e [AssertionError; ValueError; ZeroDivisionError; IndexError]
  end.
Proof.
  intros V N vpow part g cs s H.
  cut (forall c ph, In (c, ph) (snd s) -> forall r, ph = Done r -> match r with
    | Ok D => nrow D = nrow (c_X c) /\ ncol D = nrow (call_Y c)
    | Raise e => In e [AssertionError; ValueError; ZeroDivisionError; IndexError] end).
  { intros X c r Hin. exact (X c (Done r) Hin r eq_refl). }
  remember (begin g cs) as s0 eqn:E0. induction H as [s|s s' s'' H IH HS].
  - subst s. cbn. intros c ph Hin r Er. apply in_map_iff in Hin as (c' & E & _). injection E as <- <-. discriminate.
  - specialize (IH E0). destruct HS as [g1 g2 pre c ph ph' post HM]. cbn [snd] in *. intros c1 ph1 Hin r Er.
    apply (in_replace _ _ (c, ph)) in Hin as [E|[_ Hin]]; [|exact (IH c1 ph1 Hin r Er)]. injection E as -> ->. subst ph'.
    assert (O : forall w i e, own_hist (V := V) w i = Raise e -> e = IndexError) by (intros w i e; unfold own_hist; destruct (nth_error w i); congruence).
    inversion HM; subst; cbn; try tauto.
    + match goal with X : call_check c = Raise e |- _ => unfold call_check in X; rename X into HC end.
      destruct (negb _); cbn [guard bind] in HC; [injection HC as <-; tauto|]. destruct (c_bins c <? 0)%Z; cbn [guard bind] in HC; [injection HC as <-; tauto|].
      destruct (c_bins c =? 0)%Z; cbn [guard bind] in HC; [injection HC as <-; tauto|]. destruct (_ =? 0); cbn [guard bind] in HC; [injection HC as <-; tauto|discriminate].
    + match goal with X : f w i = Raise e, Y : hist_task part c = Some f |- _ => rewrite (task_error part c f w i e Y X) end. tauto.
    + match goal with X : fit_task _ w i = Raise e |- _ => unfold fit_task in X; rename X into HC end.
      destruct (own_hist w i) as [x|e'] eqn:EO; cbn [bind] in HC; [|injection HC as <-; rewrite (O _ _ _ EO); tauto].
      destruct (negb _); cbn [guard] in HC; [injection HC as <-; tauto|discriminate].
    + match goal with X : own_hist w i = Raise e |- _ => rewrite (O _ _ _ X) end. tauto.
Qed.

(** ** DEFECT: overlapping calls with other data *)
(** For any two calls with equally many features and bins there is a schedule in
    which both return, the second its own values, and the first counts the masses
    in the data of the second: *)
Theorem C170_other_data :
  forall part g nxA nyA xA yA pA jobsA cpusA nxB nyB xB yB pB jobsB cpusB d nb seps,
    (0 <= pA)%R -> (0 <= pB)%R -> 0 < d -> 1 <= nb <= nyA -> 1 <= nb <= nyB -> workers jobsA cpusA -> workers jobsB cpusB ->
    (forall f, f < d -> equal_width nb (feature nyB yB f) (seps f)) ->
    let A := MCall (rmat nxA d xA) (Some (rmat nyA d yA)) (XFin pA) (Z.of_nat nb) "range" jobsA cpusA in
    let B := MCall (rmat nxB d xB) (Some (rmat nyB d yB)) (XFin pB) (Z.of_nat nb) "range" jobsB cpusB in
    exists g' DA DB, ssteps xpow part (begin g [A; B]) (g', [(A, Done (Ok DA)); (B, Done (Ok DB))]) /\
      eq2 DB (rmat nxB nyB (fun i j => mp_formula d (nxB + nyB) (used_p pB) (fun f => massR (seps f) (feature nyB yB f) (xB i f) (yB j f)))) /\
      eq2 DA (rmat nxA nyA (fun i j => mp_formula d (nxA + nyA) (used_p pA) (fun f => massR (seps f) (feature nyB yB f) (xA i f) (yA j f)))).
Proof.
  intros part g nxA nyA xA yA pA jobsA cpusA nxB nyB xB yB pB jobsB cpusB d nb seps HpA HpB Hd HnA HnB HJA HJB HS A B.
  destruct (widths nyA d yA nb ltac:(lia) ltac:(lia)) as (sepsA & WA).
  destruct (range_hist part A nxA nyA d xA yA nb sepsA eq_refl eq_refl eq_refl eq_refl HnA WA) as (CA & hA & loA & hiA & HA & LA & _).
  destruct (range_hist part B nxB nyB d xB yB nb seps eq_refl eq_refl eq_refl eq_refl HnB HS) as (CB & hB & lo & hi & HB & LB & EB).
  assert (NA : call_nb A = nb) by apply Nat2Z.id. assert (NB : call_nb B = nb) by apply Nat2Z.id.
  assert (JA : (1 <= call_workers A)%Z) by exact HJA. assert (JB : (1 <= call_workers B)%Z) by exact HJB.
  destruct (to_fork2 xpow part A g hA CA JA HA) as (g1 & M1 & _).
  destruct (to_fork2 xpow part B g1 hB CB JB HB) as (g2 & M2 & K2).
  assert (FL : forall i, i < d -> length (fst (nth i hB ([], []))) = nb).
  { intros i Hi. destruct (EB i Hi) as (E & L & _). unfold histo in *. rewrite E. cbn [fst]. rewrite hist_len. cbn [length]. rewrite app_length, map_length, L. cbn. lia. }
  destruct (end_run xpow part A g2 hB JA ltac:(lia) K2) as (DA & MA & QA); [cbn; lia|intros i Hi; rewrite NA; apply FL; exact Hi|].
  destruct (end_run xpow part B g2 hB JB ltac:(lia) K2) as (DB & MB & QB); [cbn; lia|intros i Hi; rewrite NB; apply FL; exact Hi|].
  exists g2, DA, DB. split.
  { eapply ssteps_trans; [exact (msteps_sys xpow part A g Start g1 _ [] [(B, Start)] M1)|].
    eapply ssteps_trans; [exact (msteps_sys xpow part B g1 Start g2 _ [(A, Fork2 [])] [] M2)|].
    eapply ssteps_trans; [exact (msteps_sys xpow part A g2 _ g2 _ [] [(B, Fork2 [])] MA)|].
    exact (msteps_sys xpow part B g2 _ g2 _ [(A, Done (Ok DA))] [] MB). }
  destruct QA as (A1 & A2 & A3), QB as (B1 & B2 & B3). cbn in A1, A2, B1, B2.
  split; (split; [assumption|]; split; [assumption|]); intros i j Hi Hj; [rewrite (B3 i j Hi Hj)|rewrite (A3 i j Hi Hj)]; cbn [at2 rmat].
  - apply (cell_value B hB nxB nyB d xB yB pB nb (feature nyB yB) seps lo hi); auto; try lia; exact EB.
  - apply (cell_value A hB nxA nyA d xA yA pA nb (feature nyB yB) seps lo hi); auto; try lia; exact EB.
Qed.

(** One bin: every entry is wrong whenever the data sets differ in size, and it
    can be any fraction or multiple of the right one. *)
Theorem C170_wrong_result :
  forall part g nxA nyA xA yA pA jobsA cpusA nxB nyB xB yB pB jobsB cpusB d,
    (0 <= pA)%R -> (0 <= pB)%R -> 0 < d -> 1 <= nyA -> 1 <= nyB -> workers jobsA cpusA -> workers jobsB cpusB ->
    let A := MCall (rmat nxA d xA) (Some (rmat nyA d yA)) (XFin pA) 1 "range" jobsA cpusA in
    let B := MCall (rmat nxB d xB) (Some (rmat nyB d yB)) (XFin pB) 1 "range" jobsB cpusB in
    (forall r, returns xpow part A r -> exists D, r = Ok D /\ eq2 D (rmat nxA nyA (fun _ _ => INR nyA / INR (nxA + nyA))%R)) /\
    exists g' DA DB, ssteps xpow part (begin g [A; B]) (g', [(A, Done (Ok DA)); (B, Done (Ok DB))]) /\
      eq2 DA (rmat nxA nyA (fun _ _ => INR nyB / INR (nxA + nyA))%R).
Proof.
  intros part g nxA nyA xA yA pA jobsA cpusA nxB nyB xB yB pB jobsB cpusB d HpA HpB Hd HnA HnB HJA HJB A B.
  assert (M : forall n y f u v, massR [] (feature n y f) u v = n).
  { intros n y f u v. unfold massR. cbn. rewrite filter_all; [apply feature_len|]. reflexivity. }
  assert (E1 : forall n y s, 1 <= n -> (forall f, f < d -> equal_width 1 (feature n y f) (s f)) -> forall f, f < d -> s f = []).
  { intros n y s _ H f Hf. destruct (H f Hf) as (lo & hi & _ & _ & _ & ->). reflexivity. }
  destruct (widths nyA d yA 1 ltac:(lia) ltac:(lia)) as (sA & WA). destruct (widths nyB d yB 1 ltac:(lia) ltac:(lia)) as (sB & WB).
  assert (FC : forall nx ny n y s (u v : nat -> R) p, (0 <= p)%R -> 0 < nx + ny -> (forall f, f < d -> s f = []) ->
    mp_formula d (nx + ny) (used_p p) (fun f => massR (s f) (feature n y f) (u f) (v f)) = (INR n / INR (nx + ny))%R).
  { intros nx ny n y s u v p Hp Ht Hs. rewrite <- (formula_const d (nx + ny) (used_p p) n) by (auto using used_p_pos). unfold mp_formula. f_equal. f_equal. f_equal.
    apply map_ext_in. intros f Hf. apply in_seq in Hf. rewrite (Hs f) by lia. rewrite M. reflexivity. }
  split.
  - intros r H. destruct (C112_range_value part nxA nyA d xA yA pA 1 jobsA cpusA sA r HpA Hd ltac:(lia) HJA WA H) as (D & -> & Q1 & Q2 & Q3).
    exists D. split; [reflexivity|]. cbn in Q1, Q2. split; [exact Q1|]. split; [exact Q2|]. intros i j Hi Hj. rewrite (Q3 i j Hi Hj). cbn [at2 rmat]. f_equal.
    rewrite (FC nxA nyA nyA yA sA (xA i) (yA j)); auto; [lia|]. exact (E1 nyA yA sA HnA WA).
  - destruct (C170_other_data part g nxA nyA xA yA pA jobsA cpusA nxB nyB xB yB pB jobsB cpusB d 1 sB HpA HpB Hd ltac:(lia) ltac:(lia) HJA HJB WB) as (g' & DA & DB & ST & _ & Q1 & Q2 & Q3).
    exists g', DA, DB. split; [exact ST|]. cbn in Q1, Q2. split; [exact Q1|]. split; [exact Q2|]. intros i j Hi Hj. rewrite (Q3 i j Hi Hj). cbn [at2 rmat]. f_equal.
    rewrite (FC nxA nyA nyB yB sB (xA i) (yA j)); auto; [lia|]. exact (E1 nyB yB sB HnB WB).
Qed.

(** ** DEFECT: overlapping calls with the same data *)
(** Bins of equal mass whose last position has to be appended: two calls that
    each return a result on their own, made at the same time, may both raise
    ValueError (each appends the position to the other's list). *)
Theorem C170_append_twice :
  forall V (N : Num V) vpow part g c c' D D',
    returns vpow part c (Ok D) -> returns vpow part c' (Ok D') -> same_bins c c' ->
    String.prefix (c_bin c) "mass" = true -> 0 < ncol (call_Y c) ->
    (nrow (call_Y c) - 1) mod (nrow (call_Y c) / Z.to_nat (c_bins c)) <> 0 ->
    exists g', ssteps vpow part (begin g [c; c']) (g', [(c, Done (Raise ValueError)); (c', Done (Raise ValueError))]).
Proof.
  intros V N vpow part g c c' D D' O O' (HY & HB & HN) HM Hd ND.
  assert (EC : forall (c : mcall (V := V)) D, returns vpow part c (Ok D) -> ncol (c_X c) = ncol (call_Y c)).
  { intros c0 D0 H. apply mpd_ok_value in H as (E & HP & _). apply prepare_pos in HP. symmetry. destruct HP as (_ & _ & HP & _). symmetry. exact HP. }
  pose proof (EC c D O) as E1. pose proof (EC c' D' O') as E2. destruct HY as (HY1 & HY2 & _).
  apply (double_append vpow part c c' g D D' O O' HY1 HB HM); [rewrite <- HN; exact HM|lia|lia|exact ND].
Qed.

(** ** concrete cases *)
(** four objects and eight objects: alone 1/2, at the same time 1 *)
Example C170_case :
  let A := MCall (rmat 4 1 ex_y) None (XFin 1) 1 "range" 2 4 in
  let A' := MCall (rmat 4 1 ex_y) (Some (rmat 4 1 ex_y)) (XFin 1) 1 "range" 2 4 in
  let B := MCall (rmat 8 1 ex_y) (Some (rmat 8 1 ex_y)) (XFin 2) 1 "range" 1 4 in
  (forall r, returns xpow ref_part A r -> exists D, r = Ok D /\ at2 D 0 3 = XFin (4 / 8)) /\
  exists g' DA DB, ssteps xpow ref_part (begin (Globals [] []) [A'; B]) (g', [(A', Done (Ok DA)); (B, Done (Ok DB))]) /\ at2 DA 0 3 = XFin (8 / 8).
Proof.
  intros A A' B.
  destruct (C170_wrong_result ref_part (Globals [] []) 4 4 ex_y ex_y 1 2 4 8 8 ex_y ex_y 2 1 4 1) as [H1 (g' & DA & DB & H2 & Q1 & Q2 & Q3)];
    try lra; try lia; try (unfold workers; cbn; lia).
  split.
  - intros r H. apply C112_default_Y in H. destruct (H1 r H) as (D & -> & P1 & P2 & P3). exists D. split; [reflexivity|]. cbn in P1, P2. rewrite P3 by lia. cbn [at2 rmat]. f_equal. cbn. lra.
  - exists g', DA, DB. split; [exact H2|]. cbn in Q1, Q2. rewrite Q3 by lia. cbn [at2 rmat]. f_equal. cbn. lra.
Qed.
(** four objects in two bins of equal mass: the premises of C170_append_twice *)
Example C170_append_case :
  let c := MCall (rmat 4 1 ex_y) (Some (rmat 4 1 ex_y)) (XFin 1) 2 "mass" 2 4 in
  (exists D, returns xpow ref_part c (Ok D)) /\ same_bins c c /\ (nrow (call_Y c) - 1) mod (nrow (call_Y c) / Z.to_nat (c_bins c)) <> 0 /\
  exists g', ssteps xpow ref_part (begin (Globals [] []) [c; c]) (g', [(c, Done (Raise ValueError)); (c, Done (Raise ValueError))]).
Proof.
  intros c. destruct (C114_terminates xr _ xpow ref_part (c_X c) (c_Y c) (c_p c) (c_bins c) (c_bin c) (c_jobs c) (c_cpus c)) as (r & H).
  destruct (masses 4 1 ex_y 2 2) as (seps & W).
  destruct (C112_mass_value ref_part (ref_part_ok xr_cmp) 4 4 1 ex_y ex_y 1 2 2 4 seps r) as (D & -> & _); try lra; try lia; [unfold workers; cbn; lia|reflexivity|exact W|exact H|].
  assert (SB : same_bins c c) by (repeat split; reflexivity). assert (ND : (nrow (call_Y c) - 1) mod (nrow (call_Y c) / Z.to_nat (c_bins c)) <> 0) by (vm_compute; discriminate).
  split; [exists D; exact H|]. split; [exact SB|]. split; [exact ND|].
  apply (C170_append_twice xr _ xpow ref_part (Globals [] []) c c D D H H SB eq_refl); [cbn; lia|exact ND].
Qed.
(** calls with the same training data and different test data, seven objects in
    three bins of equal mass: the premises of C170_same_bins *)
Example C170_same_case :
  let c := MCall (rmat 2 1 ex_y) (Some (rmat 7 1 ex_y)) (XFin 1) 3 "mass" 2 4 in
  let c' := MCall (rmat 5 1 ex_y) (Some (rmat 7 1 ex_y)) (XFin 2) 3 "mass" 1 4 in
  forall s r, ssteps xpow ref_part (begin (Globals [] []) [c; c']) s -> In (c', Done r) (snd s) -> returns xpow ref_part c' r.
Proof.
  intros c c' s r H Hin. refine (C170_same_bins xr _ xpow ref_part _ _ s H _ _ c' r Hin).
  - intros a b [<-|[<-|[]]] [<-|[<-|[]]]; repeat split; reflexivity.
  - intros a [<-|[<-|[]]]; right; reflexivity.
Qed.

Print Assumptions C170_one_at_a_time.
Print Assumptions C170_every_outcome.
Print Assumptions C170_same_bins.
Print Assumptions C170_any_schedule.
Print Assumptions C170_other_data.
Print Assumptions C170_wrong_result.
Print Assumptions C170_append_twice.
