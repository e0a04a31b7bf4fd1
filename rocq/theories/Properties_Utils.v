(** C38: the progress counter shared by processes (utils.py). *)
From Coq Require Import ZArith List Arith Lia Bool.
From Verif Require Import S_Utils M_Utils.
Import ListNotations.
Local Open Scope Z_scope.

Definition op_of (e : nat * cop * Z) : cop := snd (fst e).
Definition pid_of (e : nat * cop * Z) : nat := fst (fst e).
Definition value_of (e : nat * cop * Z) : Z := snd e.

Lemma int32_add a n : int32 (int32 a + n) = int32 (a + n).
Proof.
  unfold int32. f_equal. replace ((a + 2 ^ 31) mod 2 ^ 32 - 2 ^ 31 + n + 2 ^ 31) with ((a + 2 ^ 31) mod 2 ^ 32 + n) by lia.
  rewrite Zplus_mod_idemp_l. f_equal. lia.
Qed.
Lemma seq_results_app v a b : seq_results v (a ++ b) = seq_results v a ++ seq_results (v + total a) b.
Proof.
  revert v. induction a as [|o a IH]; intros v; cbn [seq_results app total fold_right]; [now rewrite Z.add_0_r|].
  rewrite IH. fold (total a). now rewrite Z.add_assoc.
Qed.
Lemma total_app a b : total (a ++ b) = total a + total b.
Proof. induction a as [|o a IH]; cbn; [reflexivity|]. fold (total (a ++ b)) (total a). rewrite IH. lia. Qed.

(** invariant *)
Definition in_call (c : pcs) : option cop :=
  match c with Idle | Dead => None | Acq o | Rd o _ | Wr o | Got o _ => Some o end.
Definition holder_ok (A : Z) (v : Z) (c : pcs) : Prop :=
  match c with
  | Idle => False
  | Acq _ => v = int32 A
  | Rd (Inc _) w => v = int32 A /\ w = v
  | Wr (Inc n) => v = int32 (A + n)
  | Rd Get _ | Wr Get => False
  | Got o w => w = v /\ v = int32 (A + amount o)
  | Dead => True
  end.
Definition inv (init : Z) (prog : nat -> list cop) (s : cstate) : Prop :=
  map value_of (log s) = seq_results init (map op_of (log s)) /\
  (match clock s with
   | None => cval s = int32 (init + total (map op_of (log s))) /\ forall q, cpc s q = Idle \/ cpc s q = Dead
   | Some p => holder_ok (init + total (map op_of (log s))) (cval s) (cpc s p) /\ forall q, q <> p -> cpc s q = Idle \/ cpc s q = Dead
   end) /\
  (forall p, let mine := map op_of (filter (fun e => Nat.eqb (pid_of e) p) (log s)) in
     match cpc s p with
     | Dead => ctodo s p = [] /\ exists rest, mine ++ rest = prog p
     | c => mine ++ (match in_call c with Some o => [o] | None => [] end) ++ ctodo s p = prog p
     end).

Lemma upd_same {A} (f : nat -> A) p x : upd f p x p = x. Proof. unfold upd. now rewrite Nat.eqb_refl. Qed.
Lemma upd_other {A} (f : nat -> A) p x q : q <> p -> upd f p x q = f q.
Proof. intros H. unfold upd. apply Nat.eqb_neq in H. now rewrite H. Qed.

Lemma holder_is init prog s p : inv init prog s -> in_call (cpc s p) <> None -> clock s = Some p.
Proof.
  intros (_ & H & _) Hc. destruct (clock s) as [q|]; destruct H as (_ & H).
  - destruct (Nat.eq_dec p q) as [->|Hn]; [reflexivity|]. destruct (H p Hn) as [E|E]; rewrite E in Hc; now destruct Hc.
  - destruct (H p) as [E|E]; rewrite E in Hc; now destruct Hc.
Qed.

Lemma inv_step init prog p s s' : inv init prog s -> cstep p s s' -> inv init prog s'.
Proof.
  intros I H. destruct H as [s o t E L T | s n E | s n v E | s n E | s E | s o v E | s E].
  2,3,4,5,6: pose proof (holder_is _ _ _ p I ltac:(rewrite E; discriminate)) as L.
  all: destruct I as (I1 & I2 & I3); rewrite L in I2 || idtac; try rewrite E in I2.
  - destruct I2 as (V & Q). split; [exact I1|]. cbn. split.
    + split; [rewrite upd_same; cbn; exact V|]. intros q Hq. rewrite upd_other by assumption. apply Q.
    + intros q. destruct (Nat.eq_dec q p) as [->|Hq]; [|rewrite !upd_other by assumption; apply I3].
      rewrite !upd_same. cbn. specialize (I3 p). rewrite E, T in I3. exact I3.
  - destruct I2 as (V & Q). cbn in V. split; [exact I1|]. cbn. rewrite L. split.
    + split; [rewrite upd_same; cbn; now split|]. intros q Hq. rewrite upd_other by assumption. now apply Q.
    + intros q. specialize (I3 q). destruct (Nat.eq_dec q p) as [->|Hq]; [|rewrite !upd_other by assumption; apply I3].
      rewrite !upd_same. rewrite E in I3. exact I3.
  - destruct I2 as (V & Q). cbn in V. split; [exact I1|]. cbn. rewrite L. split.
    + split; [rewrite upd_same; cbn; destruct V as (V & ->); rewrite V; apply int32_add|]. intros q Hq. rewrite upd_other by assumption. now apply Q.
    + intros q. specialize (I3 q). destruct (Nat.eq_dec q p) as [->|Hq]; [|rewrite !upd_other by assumption; apply I3].
      rewrite !upd_same. rewrite E in I3. exact I3.
  - destruct I2 as (V & Q). cbn in V. split; [exact I1|]. cbn. rewrite L. split.
    + split; [rewrite upd_same; cbn; now split|]. intros q Hq. rewrite upd_other by assumption. now apply Q.
    + intros q. specialize (I3 q). destruct (Nat.eq_dec q p) as [->|Hq]; [|rewrite !upd_other by assumption; apply I3].
      rewrite !upd_same. rewrite E in I3. exact I3.
  - destruct I2 as (V & Q). cbn in V. split; [exact I1|]. cbn. rewrite L. split.
    + split; [rewrite upd_same; cbn; now rewrite Z.add_0_r|]. intros q Hq. rewrite upd_other by assumption. now apply Q.
    + intros q. specialize (I3 q). destruct (Nat.eq_dec q p) as [->|Hq]; [|rewrite !upd_other by assumption; apply I3].
      rewrite !upd_same. rewrite E in I3. exact I3.
  - destruct I2 as (V & Q). cbn in V. destruct V as (-> & V). split; [|split]; cbn.
    + rewrite !map_app, seq_results_app, I1. cbn. f_equal. now rewrite V.
    + rewrite map_app, total_app. cbn. rewrite Z.add_0_r. split; [rewrite V; f_equal; lia|].
      intros q. destruct (Nat.eq_dec q p) as [->|Hq]; [rewrite upd_same; now left|]. rewrite upd_other by assumption. now apply Q.
    + intros q. specialize (I3 q). rewrite filter_app, map_app.
      replace (filter (fun e => Nat.eqb (pid_of e) q) [(p, o, cval s)]) with (if Nat.eqb p q then [(p, o, cval s)] else []) by (cbn; now destruct (Nat.eqb p q)).
      destruct (Nat.eq_dec q p) as [->|Hq].
      * rewrite !upd_same, Nat.eqb_refl. rewrite E in I3. rewrite <- app_assoc. exact I3.
      * rewrite !upd_other by assumption. replace (Nat.eqb p q) with false by (symmetry; apply Nat.eqb_neq; congruence). cbn [map]. rewrite app_nil_r. exact I3.
  - split; [exact I1|]. cbn. split.
    + destruct (clock s) as [h|].
      * destruct I2 as (V & Q). split.
        -- destruct (Nat.eq_dec h p) as [->|Hh]; [rewrite upd_same; exact I|]. rewrite upd_other by assumption. exact V.
        -- intros q Hq. destruct (Nat.eq_dec q p) as [->|Hp]; [rewrite upd_same; now right|]. rewrite upd_other by assumption. now apply Q.
      * destruct I2 as (V & Q). split; [exact V|]. intros q. destruct (Nat.eq_dec q p) as [->|Hp]; [rewrite upd_same; now right|]. rewrite upd_other by assumption. apply Q.
    + intros q. specialize (I3 q). destruct (Nat.eq_dec q p) as [->|Hq]; [|rewrite !upd_other by assumption; apply I3].
      rewrite !upd_same. split; [reflexivity|]. destruct (cpc s p); try contradiction; eexists; exact I3.
Qed.

Lemma inv_init init prog : inv init prog (cinit init prog).
Proof. split; [reflexivity|]. cbn. rewrite Z.add_0_r. split; [split; [reflexivity|now left]|reflexivity]. Qed.

Lemma inv_steps init prog s s' : inv init prog s -> csteps s s' -> inv init prog s'.
Proof. intros I H. induction H as [|a b c p H IH St]; [assumption|]. exact (inv_step _ _ p b c (IH I) St). Qed.

(** ** every execution, with deaths at any point, is explained by performing the
    finished calls one after the other in the order they finished; each process's
    calls happen in program order *)
Theorem C38_linearizable :
  forall init prog s, csteps (cinit init prog) s ->
    map value_of (log s) = seq_results init (map op_of (log s)) /\
    forall p, exists rest, map op_of (filter (fun e => Nat.eqb (pid_of e) p) (log s)) ++ rest = prog p.
Proof.
  intros init prog s H. pose proof (inv_steps _ _ _ _ (inv_init init prog) H) as (I1 & _ & I3). split; [exact I1|].
  intros p. specialize (I3 p). destruct (cpc s p); try (eexists; exact I3). apply I3.
Qed.

(** ** no value is handed out twice, as long as the counter moves by less than 2^32 *)
Lemma int32_inj a b : int32 a = int32 b -> Z.abs (a - b) < 2 ^ 32 -> a = b.
Proof.
  unfold int32. intros E H. assert (E' : (a + 2 ^ 31) mod 2 ^ 32 = (b + 2 ^ 31) mod 2 ^ 32) by lia.
  pose proof (Z.div_mod (a + 2 ^ 31) (2 ^ 32) ltac:(lia)). pose proof (Z.div_mod (b + 2 ^ 31) (2 ^ 32) ltac:(lia)).
  assert ((a + 2 ^ 31) / 2 ^ 32 = (b + 2 ^ 31) / 2 ^ 32) by nia. nia.
Qed.
Lemma seq_results_nth v ops i d : (i < length ops)%nat -> nth i (seq_results v ops) d = int32 (v + total (firstn (S i) ops)).
Proof.
  revert v i. induction ops as [|o ops IH]; intros v i Hi; [cbn in Hi; lia|]. destruct i as [|i].
  - cbn. f_equal. destruct o; cbn; lia.
  - cbn [seq_results nth]. rewrite IH by (cbn in Hi; lia). f_equal.
    change (firstn (S (S i)) (o :: ops)) with (o :: firstn (S i) ops).
    unfold total at 2. cbn [fold_right]. fold (total (firstn (S i) ops)). lia.
Qed.
Lemma seq_results_len v ops : length (seq_results v ops) = length ops.
Proof. revert v. induction ops; intros; cbn; [reflexivity|]. now rewrite IHops. Qed.
Lemma total_firstn_mono ops i j : (forall o, In o ops -> 0 <= amount o) -> (i <= j)%nat -> total (firstn i ops) <= total (firstn j ops).
Proof.
  intros Hp. revert i j. induction ops as [|o ops IH]; intros i j Hij; [now rewrite !firstn_nil|].
  destruct i as [|i].
  - cbn. destruct j; [cbn; lia|]. assert (forall l, (forall o, In o l -> 0 <= amount o) -> 0 <= total l).
    { clear. induction l as [|o l IH]; intros H; cbn; [lia|]. fold (total l). pose proof (H o (or_introl eq_refl)).
      pose proof (IH (fun a Ha => H a (or_intror Ha))). lia. }
    apply H. intros a Ha. apply Hp. apply (firstn_skipn (S j) (o :: ops)) || idtac.
    rewrite <- (firstn_skipn (S j) (o :: ops)). apply in_or_app. now left.
  - destruct j as [|j]; [lia|]. cbn. fold (total (firstn i ops)) (total (firstn j ops)).
    pose proof (IH (fun a Ha => Hp a (or_intror Ha)) i j ltac:(lia)). lia.
Qed.

Theorem C38_distinct_values :
  forall init prog s, csteps (cinit init prog) s ->
    (forall p n, In (Inc n) (prog p) -> 0 < n) ->
    total (map op_of (log s)) < 2 ^ 32 ->
    forall i j e e' n n', nth_error (log s) i = Some e -> nth_error (log s) j = Some e' -> i <> j ->
      op_of e = Inc n -> op_of e' = Inc n' -> value_of e <> value_of e'.
Proof.
  intros init prog s H Hpos Htot.
  destruct (C38_linearizable init prog s H) as (HV & HO).
  set (ops := map op_of (log s)) in *.
  assert (Pos : forall o, In o ops -> 0 <= amount o).
  { intros o Ho. unfold ops in Ho. apply in_map_iff in Ho. destruct Ho as (e & <- & He). destruct (op_of e) as [n|] eqn:E; [|cbn; lia].
    cbn. apply Z.lt_le_incl, (Hpos (pid_of e)). destruct (HO (pid_of e)) as (rest & <-). apply in_or_app. left. rewrite <- E.
    apply in_map. apply filter_In. split; [assumption|apply Nat.eqb_refl]. }
  assert (W : forall i j e e' n', (i < j)%nat -> nth_error (log s) i = Some e -> nth_error (log s) j = Some e' -> op_of e' = Inc n' -> value_of e <> value_of e').
  { intros i j e e' n' Hij Ei Ej Eo Ev.
    assert (Li : (i < length (log s))%nat) by (apply nth_error_Some; congruence).
    assert (Lj : (j < length (log s))%nat) by (apply nth_error_Some; congruence).
    assert (Lo : length ops = length (log s)) by apply map_length.
    assert (Vi : value_of e = int32 (init + total (firstn (S i) ops))).
    { rewrite <- seq_results_nth with (d := 0) by lia. fold ops in HV. rewrite <- HV. symmetry. apply nth_error_nth. now apply map_nth_error. }
    assert (Vj : value_of e' = int32 (init + total (firstn (S j) ops))).
    { rewrite <- seq_results_nth with (d := 0) by lia. rewrite <- HV. symmetry. apply nth_error_nth. now apply map_nth_error. }
    assert (Pn : 0 < n').
    { apply (Hpos (pid_of e')). destruct (HO (pid_of e')) as (rest & <-). apply in_or_app. left. rewrite <- Eo.
      apply in_map. apply filter_In. split; [now apply nth_error_In in Ej|apply Nat.eqb_refl]. }
    assert (St : total (firstn (S j) ops) = total (firstn j ops) + n').
    { assert (Ej' : nth_error ops j = Some (Inc n')) by (unfold ops; rewrite <- Eo; now apply map_nth_error).
      destruct (nth_error_split _ _ Ej') as (l1 & l2 & -> & Ll). rewrite <- Ll.
      replace (S (length l1)) with (length (l1 ++ [Inc n'])) by (rewrite app_length; cbn; lia).
      replace (l1 ++ Inc n' :: l2) with ((l1 ++ [Inc n']) ++ l2) by now rewrite <- app_assoc.
      rewrite firstn_app, Nat.sub_diag, firstn_all. cbn [firstn]. rewrite app_nil_r.
      rewrite <- app_assoc, firstn_app, Nat.sub_diag, firstn_all. cbn [firstn]. rewrite app_nil_r, total_app. cbn. lia. }
    pose proof (total_firstn_mono ops (S i) j Pos ltac:(lia)).
    pose proof (total_firstn_mono ops (S j) (length ops) Pos ltac:(lia)) as Up. rewrite firstn_all in Up.
    pose proof (total_firstn_mono ops 0 (S i) Pos ltac:(lia)) as Lo0. change (total (firstn 0 ops)) with 0 in Lo0.
    assert (E : init + total (firstn (S i) ops) = init + total (firstn (S j) ops)) by (apply int32_inj; [congruence|lia]). lia. }
  intros i j e e' n n' Ei Ej Hne Eo Eo' Ev. destruct (Nat.lt_total i j) as [L|[->|L]]; [|now apply Hne|].
  - eapply W; eauto.
  - symmetry in Ev. revert Ev. eapply W; eauto.
Qed.

(** ** nothing is lost: once all calls of all processes have returned, the
    counter holds the initial value plus all increments *)
Fixpoint all_calls (prog : nat -> list cop) (P : nat) : list cop :=
  match P with O => [] | S P' => all_calls prog P' ++ prog P' end.

Lemma log_split (l : list (nat * cop * Z)) P : (forall e, In e l -> (pid_of e < P)%nat) ->
  total (map op_of l) = total (all_calls (fun p => map op_of (filter (fun e => Nat.eqb (pid_of e) p) l)) P) /\
  length l = length (all_calls (fun p => map op_of (filter (fun e => Nat.eqb (pid_of e) p) l)) P).
Proof.
  induction l as [|e l IH]; intros H.
  - clear H. cbn. induction P; cbn; [now split|]. now rewrite app_nil_r.
  - destruct IH as (IH1 & IH2); [intros; apply H; now right|]. cbn [map total fold_right length]. fold (total (map op_of l)). rewrite IH1, IH2. clear IH1 IH2.
    assert (He : (pid_of e < P)%nat) by (apply H; now left). clear H. cbn [filter].
    assert (Low : forall Q, (Q <= pid_of e)%nat -> all_calls (fun p => map op_of (if Nat.eqb (pid_of e) p then e :: filter (fun e => Nat.eqb (pid_of e) p) l else filter (fun e => Nat.eqb (pid_of e) p) l)) Q
      = all_calls (fun p => map op_of (filter (fun e => Nat.eqb (pid_of e) p) l)) Q).
    { induction Q as [|Q IHQ]; intros HQ; [reflexivity|]. cbn [all_calls]. rewrite IHQ by lia. replace (Nat.eqb (pid_of e) Q) with false by (symmetry; apply Nat.eqb_neq; lia). reflexivity. }
    assert (Gen : forall Q, (pid_of e < Q)%nat -> 
      total (all_calls (fun p => map op_of (if Nat.eqb (pid_of e) p then e :: filter (fun e => Nat.eqb (pid_of e) p) l else filter (fun e => Nat.eqb (pid_of e) p) l)) Q)
      = amount (op_of e) + total (all_calls (fun p => map op_of (filter (fun e => Nat.eqb (pid_of e) p) l)) Q) /\
      length (all_calls (fun p => map op_of (if Nat.eqb (pid_of e) p then e :: filter (fun e => Nat.eqb (pid_of e) p) l else filter (fun e => Nat.eqb (pid_of e) p) l)) Q)
      = S (length (all_calls (fun p => map op_of (filter (fun e => Nat.eqb (pid_of e) p) l)) Q))).
    { induction Q as [|Q IHQ]; intros HQ; [lia|]. cbn [all_calls]. rewrite !total_app, !app_length. destruct (Nat.eq_dec (pid_of e) Q) as [E|E].
      - rewrite Low by lia. rewrite E, Nat.eqb_refl. cbn [map total fold_right length]. fold (total (map op_of (filter (fun e => Nat.eqb (pid_of e) Q) l))). split; lia.
      - destruct IHQ as (A & B); [lia|]. rewrite A, B. replace (Nat.eqb (pid_of e) Q) with false by (symmetry; now apply Nat.eqb_neq). split; lia. }
    destruct (Gen P He) as (A & B). split; [now rewrite A|now rewrite B].
Qed.

Theorem C38_final_value :
  forall init prog P s, csteps (cinit init prog) s ->
    (forall p, (P <= p)%nat -> prog p = []) ->
    (forall p, (p < P)%nat -> cpc s p = Idle /\ ctodo s p = []) ->
    cval s = int32 (init + total (all_calls prog P)) /\ length (log s) = length (all_calls prog P).
Proof.
  intros init prog P s H HP Hdone. pose proof (inv_steps _ _ _ _ (inv_init init prog) H) as I.
  destruct (I) as (_ & I2 & I3).
  assert (Pid : forall e, In e (log s) -> (pid_of e < P)%nat).
  { intros e He. destruct (le_lt_dec P (pid_of e)) as [L|]; [|assumption]. exfalso.
    destruct (proj2 (C38_linearizable init prog s H) (pid_of e)) as (rest & E). rewrite HP in E by assumption.
    assert (In (op_of e) []); [|contradiction]. rewrite <- E. apply in_or_app. left. apply in_map. apply filter_In. split; [assumption|apply Nat.eqb_refl]. }
  assert (EA : forall Q, (Q <= P)%nat -> all_calls (fun p => map op_of (filter (fun e => Nat.eqb (pid_of e) p) (log s))) Q = all_calls prog Q).
  { induction Q as [|Q IH]; intros HQ; [reflexivity|]. cbn [all_calls]. rewrite IH by lia. f_equal.
    specialize (I3 Q). destruct (Hdone Q ltac:(lia)) as (Ec & Et). rewrite Ec in I3. cbn in I3. rewrite Et, app_nil_r in I3. exact I3. }
  destruct (log_split (log s) P Pid) as (T & L). rewrite EA in T, L by lia. split; [|exact L].
  rewrite <- T. destruct (clock s) as [h|] eqn:Ec; [|apply I2]. exfalso. destruct I2 as (V & _).
  destruct (le_lt_dec P h) as [Hh|Hh].
  - (* the holder has a call, so it has a program *)
    specialize (I3 h). rewrite HP in I3 by assumption. destruct (cpc s h) eqn:Eh; cbn in I3, V; try contradiction;
      try (apply app_eq_nil in I3; destruct I3 as (_ & I3); discriminate).
    (* a dead holder outside 0..P-1 must have acquired the lock: impossible *)
    assert (NH : forall s', csteps (cinit init prog) s' -> clock s' <> Some h).
    { intros s' Hs'. remember (cinit init prog) as s0. induction Hs' as [|s0 s1 s2 p Hs IH Hst]; [subst; discriminate|]. specialize (IH Heqs0 H). subst s0.
      destruct Hst; cbn; try assumption; [|discriminate]. intros Eq. injection Eq as ->.
      pose proof (inv_steps _ _ _ _ (inv_init init prog) Hs) as (_ & _ & J3). specialize (J3 h). rewrite H0, HP in J3 by assumption. cbn in J3.
      rewrite H2 in J3. apply app_eq_nil in J3. destruct J3; discriminate. }
    exact (NH s H Ec).
  - destruct (Hdone h Hh) as (Eh & _). rewrite Eh in V. exact V.
Qed.

(** ** no deadlock: unless a process died inside a call, the processes can always
    go on until every call has returned *)
Inductive live_steps : cstate -> cstate -> Prop :=
| ls_refl s : live_steps s s
| ls_step s s' s'' p : cstep p s s' -> cpc s' p <> Dead -> live_steps s' s'' -> live_steps s s''.
Lemma live_trans a b c : live_steps a b -> live_steps b c -> live_steps a c.
Proof. induction 1; intros; [assumption|]. eapply ls_step; eauto. Qed.

(** a process inside a call can finish it *)
Lemma finish_call init prog s p o : inv init prog s -> in_call (cpc s p) = Some o ->
  exists s', live_steps s s' /\ clock s' = None /\ (forall q, ctodo s' q = ctodo s q) /\
    cpc s' p = Idle /\ forall q, q <> p -> cpc s' q = cpc s q.
Proof.
  intros I Ho.
  assert (Rel : forall s o v, cpc s p = Got o v -> exists s', live_steps s s' /\ clock s' = None /\ (forall q, ctodo s' q = ctodo s q) /\
    cpc s' p = Idle /\ forall q, q <> p -> cpc s' q = cpc s q).
  { intros s1 o1 v E. eexists. split; [eapply ls_step; [eapply c_release; exact E| |apply ls_refl]; cbn; rewrite upd_same; discriminate|].
    cbn. split; [reflexivity|]. split; [reflexivity|]. split; [apply upd_same|]. intros q Hq. now apply upd_other. }
  assert (Re : forall s n, cpc s p = Wr (Inc n) -> exists s', live_steps s s' /\ clock s' = None /\ (forall q, ctodo s' q = ctodo s q) /\
    cpc s' p = Idle /\ forall q, q <> p -> cpc s' q = cpc s q).
  { intros s1 n E. destruct (Rel (CS (cval s1) (clock s1) (upd (cpc s1) p (Got (Inc n) (cval s1))) (ctodo s1) (log s1)) (Inc n) (cval s1)) as (s' & St & A & B & C & D); [apply upd_same|].
    exists s'. split; [eapply ls_step; [now apply (c_reread p s1 n)| |exact St]; cbn; rewrite upd_same; discriminate|].
    split; [exact A|]. split; [exact B|]. split; [exact C|]. intros q Hq. rewrite D by assumption. now apply upd_other. }
  assert (Wri : forall s n v, cpc s p = Rd (Inc n) v -> exists s', live_steps s s' /\ clock s' = None /\ (forall q, ctodo s' q = ctodo s q) /\
    cpc s' p = Idle /\ forall q, q <> p -> cpc s' q = cpc s q).
  { intros s1 n v E. destruct (Re (CS (int32 (v + n)) (clock s1) (upd (cpc s1) p (Wr (Inc n))) (ctodo s1) (log s1)) n) as (s' & St & A & B & C & D); [apply upd_same|].
    exists s'. split; [eapply ls_step; [now apply (c_write p s1 n v)| |exact St]; cbn; rewrite upd_same; discriminate|].
    split; [exact A|]. split; [exact B|]. split; [exact C|]. intros q Hq. rewrite D by assumption. now apply upd_other. }
  pose proof (holder_is _ _ _ p I ltac:(rewrite Ho; discriminate)) as L. destruct I as (_ & I2 & _). rewrite L in I2. destruct I2 as (V & _).
  destruct (cpc s p) as [|[n|]|[n|] v|[n|]|o' v|] eqn:E; cbn in Ho, V; try discriminate; try contradiction.
  - destruct (Wri (CS (cval s) (clock s) (upd (cpc s) p (Rd (Inc n) (cval s))) (ctodo s) (log s)) n (cval s)) as (s' & St & A & B & C & D); [apply upd_same|].
    exists s'. split; [eapply ls_step; [now apply (c_read_inc p s n)| |exact St]; cbn; rewrite upd_same; discriminate|].
    split; [exact A|]. split; [exact B|]. split; [exact C|]. intros q Hq. rewrite D by assumption. now apply upd_other.
  - destruct (Rel (CS (cval s) (clock s) (upd (cpc s) p (Got Get (cval s))) (ctodo s) (log s)) Get (cval s)) as (s' & St & A & B & C & D); [apply upd_same|].
    exists s'. split; [eapply ls_step; [now apply (c_read_get p s)| |exact St]; cbn; rewrite upd_same; discriminate|].
    split; [exact A|]. split; [exact B|]. split; [exact C|]. intros q Hq. rewrite D by assumption. now apply upd_other.
  - eapply Wri; eauto.
  - eapply Re; eauto.
  - eapply Rel; eauto.
Qed.

Lemma live_csteps a b : live_steps a b -> forall c, csteps c a -> csteps c b.
Proof. induction 1; intros; [assumption|]. apply IHlive_steps. eapply cs_step; eauto. Qed.

Fixpoint calls_left (t : nat -> list cop) (P : nat) : nat :=
  match P with O => O | S P' => (calls_left t P' + length (t P'))%nat end.
Lemma calls_left_ext t t' P : (forall p, t p = t' p) -> calls_left t P = calls_left t' P.
Proof. intros H. induction P; cbn; [reflexivity|]. now rewrite IHP, H. Qed.
Lemma calls_left_upd t p o r P : (p < P)%nat -> t p = o :: r -> calls_left t P = S (calls_left (upd t p r) P).
Proof.
  intros Hp E. assert (Low : forall Q, (Q <= p)%nat -> calls_left (upd t p r) Q = calls_left t Q).
  { induction Q as [|Q IH]; intros HQ; [reflexivity|]. cbn. rewrite IH by lia. now rewrite upd_other by lia. }
  induction P as [|P IH]; [lia|]. cbn. destruct (Nat.eq_dec p P) as [->|Hn].
  - rewrite Low, upd_same, E by lia. cbn. lia.
  - rewrite IH by lia. rewrite upd_other by lia. lia.
Qed.

Theorem C38_no_deadlock :
  forall init prog P s, csteps (cinit init prog) s -> (forall p, (P <= p)%nat -> prog p = []) ->
    (forall h, clock s = Some h -> cpc s h <> Dead) ->
    exists s', live_steps s s' /\ forall p, ctodo s' p = [] /\ (cpc s' p = Idle \/ cpc s' p = Dead).
Proof.
  intros init prog P s H HP Hd.
  assert (Free : forall k s, csteps (cinit init prog) s -> clock s = None -> calls_left (ctodo s) P = k ->
     exists s', live_steps s s' /\ forall p, ctodo s' p = [] /\ (cpc s' p = Idle \/ cpc s' p = Dead)).
  { clear s H Hd. induction k as [|k IH]; intros s H L E.
    - exists s. split; [apply ls_refl|]. pose proof (inv_steps _ _ _ _ (inv_init init prog) H) as (_ & I2 & I3). rewrite L in I2. intros p. split; [|apply I2].
      destruct (le_lt_dec P p) as [Hp|Hp].
      + specialize (I3 p). destruct I2 as (_ & Q). destruct (Q p) as [Ep|Ep]; rewrite Ep in I3; [|apply I3].
        cbn in I3. rewrite HP in I3 by assumption. now apply app_eq_nil in I3.
      + clear -E Hp. induction P as [|P' IHP]; [lia|]. cbn in E. destruct (Nat.eq_dec p P') as [->|]; [apply length_zero_iff_nil; lia|apply IHP; lia].
    - assert (exists p o r, (p < P)%nat /\ ctodo s p = o :: r) as (p & o & r & Hp & Et).
      { clear -E. induction P as [|P' IHP]; [discriminate|]. cbn in E. destruct (ctodo s P') as [|o r] eqn:EP.
        - destruct IHP as (p & o & r & Hp & Ep); [cbn in E; lia|]. exists p, o, r. split; [lia|assumption].
        - exists P', o, r. split; [lia|assumption]. }
      pose proof (inv_steps _ _ _ _ (inv_init init prog) H) as I. destruct (I) as (_ & I2 & I3). rewrite L in I2. destruct I2 as (_ & Q).
      assert (Ep : cpc s p = Idle). { destruct (Q p) as [|D]; [assumption|]. specialize (I3 p). rewrite D in I3. destruct I3 as (Z & _). congruence. }
      pose (s1 := CS (cval s) (Some p) (upd (cpc s) p (Acq o)) (upd (ctodo s) p r) (log s)).
      assert (St : cstep p s s1) by now apply c_acquire.
      assert (I' : inv init prog s1) by (eapply inv_step; eauto).
      destruct (finish_call init prog s1 p o I') as (s2 & L2 & C2 & T2 & P2 & _); [cbn; now rewrite upd_same|].
      destruct (IH s2) as (s3 & L3 & F3).
      + eapply live_csteps; [exact L2|]. eapply cs_step; eauto.
      + exact C2.
      + rewrite (calls_left_ext _ _ _ T2). cbn. rewrite (calls_left_upd _ p o r P Hp Et) in E. lia.
      + exists s3. split; [|exact F3]. eapply ls_step; [exact St| |eapply live_trans; eauto]. cbn. rewrite upd_same. discriminate. }
  pose proof (inv_steps _ _ _ _ (inv_init init prog) H) as I. destruct (clock s) as [h|] eqn:L; [|now apply (Free (calls_left (ctodo s) P))].
  destruct (in_call (cpc s h)) as [o|] eqn:Eo.
  - destruct (finish_call init prog s h o I Eo) as (s2 & L2 & C2 & _).
    destruct (Free _ s2 (live_csteps _ _ L2 _ H) C2 eq_refl) as (s3 & L3 & F3). exists s3. split; [eapply live_trans; eauto|exact F3].
  - exfalso. destruct I as (_ & I2 & _). rewrite L in I2. destruct I2 as (V & _). specialize (Hd h eq_refl).
    destruct (cpc s h); cbn in Eo, V; try discriminate; contradiction.
Qed.

(** ** if a process dies inside a call, no later call ever returns *)
Theorem C38_death_inside_a_call_blocks :
  forall init prog s s' h, csteps (cinit init prog) s -> clock s = Some h -> cpc s h = Dead ->
    csteps s s' -> log s' = log s.
Proof.
  intros init prog s s' h H L D H'.
  assert (G : csteps (cinit init prog) s' /\ clock s' = Some h /\ cpc s' h = Dead /\ log s' = log s); [|apply G].
  induction H' as [|s s1 s2 p Hs IH Hst]; [easy|]. destruct (IH H L D) as (R1 & L1 & D1 & G1). split; [eapply cs_step; eauto|].
  pose proof (inv_steps _ _ _ _ (inv_init init prog) R1) as I.
  assert (NC : p <> h -> in_call (cpc s1 p) = None).
  { intros Hp. destruct I as (_ & I2 & _). rewrite L1 in I2. destruct (proj2 I2 p Hp) as [E|E]; now rewrite E. }
  destruct (Nat.eq_dec p h) as [->|Hp].
  - destruct Hst; try congruence.
  - specialize (NC Hp). destruct Hst; cbn; try (rewrite H0 in NC; discriminate); try congruence.
    rewrite upd_other by congruence. auto.
Qed.

(** ** a concrete execution: two processes, one increment each, interleaved *)
Definition two : nat -> list cop := fun p => match p with 0%nat => [Inc 1] | 1%nat => [Inc 1; Get] | _ => [] end.
(** the next step of a process, and running a schedule *)
Definition next (p : nat) (s : cstate) : option cstate :=
  match cpc s p with
  | Idle => match clock s, ctodo s p with
            | None, o :: t => Some (CS (cval s) (Some p) (upd (cpc s) p (Acq o)) (upd (ctodo s) p t) (log s))
            | _, _ => None
            end
  | Acq (Inc n) => Some (CS (cval s) (clock s) (upd (cpc s) p (Rd (Inc n) (cval s))) (ctodo s) (log s))
  | Acq Get => Some (CS (cval s) (clock s) (upd (cpc s) p (Got Get (cval s))) (ctodo s) (log s))
  | Rd (Inc n) v => Some (CS (int32 (v + n)) (clock s) (upd (cpc s) p (Wr (Inc n))) (ctodo s) (log s))
  | Wr (Inc n) => Some (CS (cval s) (clock s) (upd (cpc s) p (Got (Inc n) (cval s))) (ctodo s) (log s))
  | Got o v => Some (CS (cval s) None (upd (cpc s) p Idle) (ctodo s) (log s ++ [(p, o, v)]))
  | _ => None
  end.
Lemma next_step p s s' : next p s = Some s' -> cstep p s s'.
Proof.
  unfold next. destruct (cpc s p) as [|[n|]|[n|] v|[n|]|o v|] eqn:E; try discriminate.
  - destruct (clock s) eqn:L; [discriminate|]. destruct (ctodo s p) eqn:T; [discriminate|]. intros H. injection H as <-. now apply c_acquire.
  - intros H. injection H as <-. now apply c_read_inc.
  - intros H. injection H as <-. now apply c_read_get.
  - intros H. injection H as <-. now apply c_write.
  - intros H. injection H as <-. now apply c_reread.
  - intros H. injection H as <-. now apply c_release.
Qed.
Fixpoint run_schedule (l : list nat) (s : cstate) : option cstate :=
  match l with [] => Some s | p :: l' => match next p s with Some s' => run_schedule l' s' | None => None end end.
Lemma run_schedule_steps l : forall s0 s s', csteps s0 s -> run_schedule l s = Some s' -> csteps s0 s'.
Proof.
  induction l as [|p l IH]; intros s0 s s' H; cbn; [intros E; now injection E as <-|].
  destruct (next p s) as [s1|] eqn:E; [|discriminate]. apply IH. exact (cs_step _ _ _ p H (next_step _ _ _ E)).
Qed.
Lemma run_schedule_log l s0 r : option_map log (run_schedule l s0) = Some r -> exists s, csteps s0 s /\ log s = r.
Proof.
  destruct (run_schedule l s0) as [s|] eqn:R; [|discriminate]. cbn. intros E. injection E as E. exists s. split; [|exact E].
  exact (run_schedule_steps _ _ _ _ (cs_refl _) R).
Qed.
Example C38_case : (exists s, csteps (cinit (-1) two) s /\ log s = [(1%nat, Inc 1, 0); (0%nat, Inc 1, 1); (1%nat, Get, 1)]) /\
  (forall p n, In (Inc n) (two p) -> 0 < n) /\ (forall p, (2 <= p)%nat -> two p = []).
Proof.
  split; [|split].
  - apply (run_schedule_log [1;1;1;1;1;0;0;0;0;0;1;1;1]%nat). vm_compute. reflexivity.
  - intros [|[|p]] n; cbn; intuition; try congruence; match goal with H : Inc _ = Inc _ |- _ => injection H; lia end.
  - intros [|[|p]] H; [lia|lia|reflexivity].
Qed.

Print Assumptions C38_linearizable.
Print Assumptions C38_distinct_values.
Print Assumptions C38_final_value.
Print Assumptions C38_no_deadlock.
Print Assumptions C38_death_inside_a_call_blocks.
