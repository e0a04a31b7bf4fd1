(** Property C182: mp_dissim with worker processes that are killed. *)
From Coq Require Import String.
From Coq Require Import ZArith List Arith Lia Bool Relations.
From Verif Require Import Py Num NumT Arr Sort Conc S_Neighbors M_IO M_SNN M_MPDissim M_Start M_MPSpawn M_Crash M_RPool M_MPKill.
From Verif Require Import P_Crash P_RPool P_MPDissim P_MPDissim2 Properties_Crash Properties_RPool Properties_MPDissim.
Import ListNotations.
Local Open Scope py_scope.
Local Open Scope nat_scope.

Lemma mapM_raises {A B} (g : A -> result B) l e : mapM g l = Raise e -> exists x, In x l /\ g x = Raise e.
Proof.
  induction l as [|x l IH]; cbn; [discriminate|]. destruct (g x) as [y|e1] eqn:Eg; cbn.
  - destruct (mapM g l) as [ys|e2]; cbn; [discriminate|]. intros [= ->]. destruct (IH eq_refl) as (z & H & Hz). exists z. split; [now right|exact Hz].
  - intros [= ->]. exists x. split; [now left|exact Eg].
Qed.
Lemma raises_mapM {A B} (g : A -> result B) l x e : In x l -> g x = Raise e -> exists e', mapM g l = Raise e'.
Proof.
  induction l as [|y l IH]; [easy|]. intros [->|H] Ex; cbn.
  - rewrite Ex. now exists e.
  - destruct (g y); cbn; [|eauto]. destruct (IH H Ex) as (e' & ->). now exists e'.
Qed.

(** ** (1) Pool.map: a call that ends, whichever workers were killed, has the results of the tasks in order
    or an exception of one of the tasks *)
Theorem C182_map : forall {E T R} (f : E -> T -> result R) env p tasks r, map_pool f env p tasks r ->
  match r with
  | Ok l => mapM (f env) tasks = Ok l
  | Raise e => exists t, In t tasks /\ f env t = Raise e
  end.
Proof.
  intros E T R f env p tasks r (chunks & s & <- & H & En). pose proof (good_history f env p chunks _ _ (good_start f env chunks) H) as G.
  destruct En as [e He|ls Ei El].
  - assert (X : exists ch, In ch chunks /\ mapM (f env) ch = Raise e).
    { apply in_app_iff in He as [He|He].
      - rewrite (g_items _ _ _ _ G) in He. apply in_map_iff in He as (ch & Ec & Hc). exists ch. split; [|exact Ec].
        rewrite <- (firstn_skipn (length (rs_items s)) chunks). apply in_app_iff. now left.
      - apply in_map_iff in He as ([c o] & Eo & Hc). cbn in Eo. subst o.
        destruct (g_wait _ _ _ _ G _ _ Hc) as (ch & Hn & He). exists ch. split; [eapply nth_error_In; eauto|now symmetry]. }
    destruct X as (ch & Hc & X). apply mapM_raises in X as (t & Ht & X). exists t. split; [|exact X].
    apply in_concat. now exists ch.
  - symmetry. eapply ends_serial; [exact H|]. now apply re_ok.
Qed.

(** after a worker was killed while it had a chunk the call does not return any more *)
Theorem C182_map_lost : forall {E T R} (f : E -> T -> result R) env p chunks s w e c ch s' s'' r,
  rhistory f env p (rstart chunks) s -> rs_work s w = RBusy e c ch -> rkill p w s s' ->
  rhistory f env p s' s'' -> mends chunks s'' r -> exists x, r = Raise x.
Proof.
  intros E T R f env p chunks s w e c ch s' s'' r H1 Ew K H2 En. destruct En as [x Hx|ls Ei El]; [now exists x|].
  exfalso. destruct (lost_end f env p chunks s w e c ch s' s'' (Ok (concat ls)) H1 Ew K H2) as (x & Hx & _); [now apply re_ok|discriminate].
Qed.

(** ** (2) mp_dissim: a call that ends has an outcome that it also has without killed workers *)
Lemma edges_same_exc {V} {N : Num V} part bin step f (Y : arr2 V) nb i j e e' : mpk_edges part bin step = Some f ->
  f (Y, nb) i = Raise e -> f (Y, nb) j = Raise e' -> e = e'.
Proof.
  unfold mpk_edges. destruct (String.prefix bin "mass") ; [|destruct (String.prefix bin "range"); [|discriminate]]; intros [= <-]; cbn [fst snd].
  - unfold mass_edges, np_partition. do 2 destruct (kth_legal _ _); cbn; congruence.
  - unfold range_edges. destruct (coll Y i) as [|a l]; destruct (coll Y j) as [|a' l']; cbn [bind]; unfold guard;
      repeat match goal with |- context[if ?b then _ else _] => destruct b end; cbn; congruence.
Qed.

Theorem C182_mp_dissim : forall {V} {N : Num V} vpow part (X : arr2 V) Y p nb bin jobs cpus r,
  mp_dissim_killed vpow part X Y p nb bin jobs cpus r -> mp_dissim vpow part X Y p nb bin jobs cpus r.
Proof.
  intros V N vpow part X Y0 p nb bin jobs cpus r H.
  set (Y := match Y0 with None => X | Some Y => Y end).
  assert (PC : forall e, mps_check X Y nb jobs cpus = Raise e -> mpd_prepare part X Y nb bin jobs cpus = Raise e).
  { intros e. unfold mps_check, mpd_prepare. unfold guard.
    repeat match goal with |- context[if ?b then Raise _ else _] => destruct b; [cbn; congruence|]; cbn [bind] end. discriminate. }
  assert (PO : forall step, mps_check X Y nb jobs cpus = Ok step -> ncol X = ncol Y /\ mpd_prepare part X Y nb bin jobs cpus =
    match mpk_edges part bin step with Some f => mapM (f (Y, Z.to_nat nb)) (seq 0 (ncol X)) | None => Raise ValueError end).
  { intros step. unfold mps_check, mpd_prepare, mpk_edges. unfold guard.
    destruct (Nat.eqb_spec (ncol X) (ncol Y)) as [Ec|]; cbn [negb]; [|discriminate]. cbn [bind]. intros H0. split; [exact Ec|].
    revert H0. repeat match goal with |- context[if ?b then Raise _ else _] => destruct b; [cbn; discriminate|]; cbn [bind] end.
    intros [= <-]. rewrite Ec. destruct (String.prefix bin "mass"); [reflexivity|]. destruct (String.prefix bin "range"); reflexivity. }
  destruct H as [e Y1 Hc|step Y1 Hc Hn|step f e Y1 Hc Hf Hm|step f E i Y1 Hc Hf Hm Hi Hh|step f E Rb bb out Y1 nb1 d w Hc Hf Hm Hh H1 H2 H3];
    subst Y1; fold Y in Hc; try fold Y in Hm; try fold Y in Hh; try fold Y in H1; try fold Y in H2; try fold Y in H3.
  - apply mpd_fail. fold Y. now apply PC.
  - apply mpd_fail. fold Y. destruct (PO _ Hc) as [_ ->]. now rewrite Hn.
  - apply mpd_fail. fold Y. destruct (PO _ Hc) as [_ ->]. rewrite Hf. apply C182_map in Hm as (i & Hi & He).
    destruct (raises_mapM _ _ _ _ Hi He) as (e' & E'). rewrite E'. f_equal. apply mapM_raises in E' as (j & Hj & E').
    now apply (edges_same_exc part bin step f Y (Z.to_nat nb) j i).
  - apply (mpd_misfit vpow part X Y0 p nb bin jobs cpus E); fold Y.
    + destruct (PO _ Hc) as [_ ->]. rewrite Hf. now apply C182_map in Hm.
    + apply existsb_exists. exists i. split; [apply in_seq; lia|]. now rewrite Hh.
  - apply killed_run in H1, H2, H3. eapply (mpd_run vpow part X Y0 p nb bin jobs cpus E); fold Y.
    + destruct (PO _ Hc) as [_ ->]. rewrite Hf. now apply C182_map in Hm.
    + apply not_true_is_false. intros T. apply existsb_exists in T as (i & Hi & T). apply in_seq in Hi.
      unfold nb1, d in *. rewrite (Hh i) in T by lia. discriminate.
    + exact H1.
    + exact H2.
    + exact H3.
Qed.

(** hence it is the result with any number of workers of which none is killed *)
Theorem C182_same_result : forall {V} {N : Num V} vpow part (X : arr2 V) Y p nb bin jobs cpus jobs' cpus' r r',
  workers jobs cpus -> workers jobs' cpus' ->
  mp_dissim_killed vpow part X Y p nb bin jobs cpus r -> mp_dissim vpow part X Y p nb bin jobs' cpus' r' ->
  match r, r' with Ok D, Ok D' => eq2 D D' | Raise e, Raise e' => e = e' | _, _ => False end.
Proof.
  intros V N vpow part X Y p nb bin jobs cpus jobs' cpus' r r' W W' H H'. apply C182_mp_dissim in H.
  exact (C114_deterministic V N vpow part X Y p nb bin jobs cpus jobs' cpus' r r' W W' H H').
Qed.

(** ** (3) With at least one worker the call can end *)
Lemma killed_pool_ends {C V T} (ceq : C -> C -> bool) p (m : C -> V) (tasks : list T) writes : 0 < p ->
  exists m', killed_pool ceq p m tasks writes m'.
Proof.
  intros Hp. destruct (C161_otherwise_returns ceq (chunk_writes writes) p m [tasks] (kstart m [tasks]) Hp) as (_ & _ & s & H & R);
    [apply Relation_Operators.rt1n_refl|].
  exists (ks_main s), [tasks], s. split; [cbn; apply app_nil_r|]. split; [|split; [exact R|reflexivity]].
  clear R. induction H as [a|a b c H1 _ IH]; [apply Relation_Operators.rt1n_refl|].
  eapply Relation_Operators.rt1n_trans; [left; exact H1|exact IH].
Qed.
Lemma map_pool_ends {E T R} (f : E -> T -> result R) env p tasks : 0 < p -> exists r, map_pool f env p tasks r.
Proof.
  intros Hp. destruct (quiet_can_end f env p [tasks] Hp) as (s & r & H & En).
  exists r. exists [tasks], s. split; [cbn; apply app_nil_r|]. split; [exact H|].
  destruct En as [pre e post Ei|ls Ei El]; [|now apply me_ok].
  apply me_raise. rewrite Ei. apply in_app_iff. left. apply in_app_iff. right. now left.
Qed.
Theorem C182_can_end : forall {V} {N : Num V} vpow part (X : arr2 V) Y p nb bin jobs cpus,
  exists r, mp_dissim_killed vpow part X Y p nb bin jobs cpus r.
Proof.
  intros V N vpow part X Y0 p nb bin jobs cpus.
  set (Y := match Y0 with None => X | Some Y => Y end).
  destruct (mps_check X Y nb jobs cpus) as [step|e] eqn:Hc; [|exists (Raise e); now apply mk_check].
  assert (W : 0 < mpk_workers jobs cpus).
  { revert Hc. unfold mps_check, mpk_workers, guard.
    destruct (Z.ltb_spec (if (jobs =? -1)%Z then Z.of_nat cpus else jobs) 1) as [L|L]; [|lia].
    repeat match goal with |- context[if ?b then Raise _ else _] => destruct b; [cbn; discriminate|]; cbn [bind] end. discriminate. }
  destruct (mpk_edges part bin step) as [f|] eqn:Hf; [|exists (Raise ValueError); now apply (mk_name vpow part X Y0 p nb bin jobs cpus step)].
  destruct (map_pool_ends f (Y, Z.to_nat nb) (mpk_workers jobs cpus) (seq 0 (ncol X)) W) as [[E|e] Hm];
    [|exists (Raise e); now apply (mk_first vpow part X Y0 p nb bin jobs cpus step f)].
  destruct (forallb (fun i => hist_fits (Z.to_nat nb) (hist (nth i E []) (coll Y i))) (seq 0 (ncol X))) eqn:Hh.
  - destruct (killed_pool_ends cell3_eq (mpk_workers jobs cpus) (fun _ => 0) (seq 0 (ncol X))
      (fun i => r_task (Z.to_nat nb) (hist (nth i E []) (coll Y i)) i) W) as [Rb H1].
    destruct (killed_pool_ends binc_eq (mpk_workers jobs cpus) (fun _ => 0) (seq 0 (ncol X))
      (fun i => bin_task (Z.to_nat nb) X Y (nth i E []) i) W) as [bb H2].
    destruct (killed_pool_ends celleq (mpk_workers jobs cpus) (fun _ => n0) (seq 0 (nrow X))
      (mpd_task vpow (fun i b c => Rb (i, (b, c))) (fun i x => bb (true, (i, x))) (fun i y => bb (false, (i, y)))
           (ncol X) (nrow X + nrow Y) (nrow Y) (mpd_p p)) W) as [out H3].
    eexists. apply (mk_run vpow part X Y0 p nb bin jobs cpus step f E Rb bb out); auto.
    intros i Hi. eapply forallb_forall in Hh; [exact Hh|]. apply in_seq. lia.
  - assert (Q : exists i, i < ncol X /\ hist_fits (Z.to_nat nb) (hist (nth i E []) (coll Y i)) = false).
    { apply not_true_iff_false in Hh. destruct (existsb (fun i => negb (hist_fits (Z.to_nat nb) (hist (nth i E []) (coll Y i)))) (seq 0 (ncol X))) eqn:Ex.
      - apply existsb_exists in Ex as (i & Hi & Ex). apply in_seq in Hi. exists i. split; [lia|]. now apply negb_true_iff in Ex.
      - elim Hh. apply forallb_forall. intros i Hi. apply not_false_iff_true. intros F.
        assert (T : existsb (fun i => negb (hist_fits (Z.to_nat nb) (hist (nth i E []) (coll Y i)))) (seq 0 (ncol X)) = true)
          by (apply existsb_exists; exists i; split; [exact Hi|now rewrite F]). congruence. }
    destruct Q as (i & Hi & Q). exists (Raise ValueError). now apply (mk_second vpow part X Y0 p nb bin jobs cpus step f E i).
Qed.

(** ** A case: a matrix, two bins and two workers for which a call with killed workers returns distances *)
Definition exM : arr2 f64 := Arr2 2 1 (fun i _ => nofnat i).
Example C182_case : forall vpow, workers 2 4 /\
  exists D, mp_dissim_killed vpow ref_part exM None n1 2 "range" 2 4 (Ok D).
Proof.
  intros vpow. split; [unfold workers; cbn; lia|].
  destruct (C182_can_end vpow ref_part exM None n1 2 "range" 2 4) as [[D|e] H]; [now exists D|].
  exfalso. apply C182_mp_dissim in H. apply mpd_outcome in H. cbn zeta in H.
  assert (P : match mpd_prepare ref_part exM (arg2 exM None) 2 "range" 2 4 with
              | Ok E => fit_all (Z.to_nat 2) (ncol exM) (arg2 exM None) E | Raise _ => false end = true) by (vm_compute; reflexivity).
  destruct (mpd_prepare ref_part exM (arg2 exM None) 2 "range" 2 4) as [E|e1]; [|discriminate].
  rewrite P in H. destruct H as (D & H & _). discriminate.
Qed.

Print Assumptions C182_map.
Print Assumptions C182_map_lost.
Print Assumptions C182_mp_dissim.
Print Assumptions C182_same_result.
Print Assumptions C182_can_end.
