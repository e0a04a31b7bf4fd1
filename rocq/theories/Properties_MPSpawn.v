(** Property C172: mp_dissim needs forked worker processes (distances.py:97-266). *)
From Coq Require Import String.
From Coq Require Import ZArith List Arith Lia Bool Reals Lra.
From Verif Require Import Py Num NumT NumPow Arr Sort Conc M_IO M_SNN M_MPDissim S_MPDissim S_Centering M_Start M_MPSpawn P_Vec P_MPDissim5 Properties_MPDissim.
Import ListNotations.
Local Open Scope nat_scope.

Lemma wmap_lift {A B} (f : A -> wres B) (g : A -> result B) l :
  (forall a, In a l -> f a = wlift (g a)) -> wmap f l = wlift (mapM g l).
Proof.
  induction l as [|a l IH]; intros H; [reflexivity|]. cbn. rewrite (H a (or_introl eq_refl)).
  rewrite IH by (intros; apply H; now right). destruct (g a) as [b|e]; [|reflexivity].
  cbn. now destruct (mapM g l).
Qed.
Lemma wmap_throws {A B} (f : A -> wres B) (l : list A) x : l <> [] -> (forall a, In a l -> f a = Throws x) -> wmap f l = Throws x.
Proof. intros NE H. destruct l as [|a l]; [contradiction|]. cbn. now rewrite (H a (or_introl eq_refl)). Qed.

Section Start.
  Context {V : Type} {N : Num V}.
  Variable part : list V -> list nat -> list V.

  Lemma prepare_split (X Y : arr2 V) nb bin jobs cpus :
    mpd_prepare part X Y nb bin jobs cpus =
    bind (mps_check X Y nb jobs cpus) (fun step =>
      if String.prefix bin "mass"%string then mapM (fun i => mass_edges part (mpd_kth (nrow Y) step) (coll Y i)) (seq 0 (ncol Y))
      else if String.prefix bin "range"%string then mapM (fun i => range_edges (Z.to_nat nb) (coll Y i)) (seq 0 (ncol Y))
      else Raise ValueError).
  Proof.
    unfold mpd_prepare, mps_check. destruct (negb (ncol X =? ncol Y)); [reflexivity|]. cbn [guard bind].
    destruct (nb <? 0)%Z; [reflexivity|]. cbn [guard bind]. destruct (nb =? 0)%Z; [reflexivity|]. cbn [guard bind]. cbv zeta.
    destruct (mpd_step (nrow Y) (Z.to_nat nb) =? 0); [reflexivity|]. cbn [guard bind].
    destruct ((if (jobs =? -1)%Z then Z.of_nat cpus else jobs) <? 1)%Z; reflexivity.
  Qed.
  Lemma prepare_fork (X Y : arr2 V) nb bin jobs cpus :
    mps_prepare part Fork X Y nb bin jobs cpus = wlift (mpd_prepare part X Y nb bin jobs cpus).
  Proof.
    rewrite prepare_split. unfold mps_prepare. destruct (mps_check X Y nb jobs cpus) as [step|e]; [|reflexivity]. cbn [wlift wbind bind].
    destruct (String.prefix bin "mass"); [apply wmap_lift; reflexivity|].
    destruct (String.prefix bin "range"); [apply wmap_lift; reflexivity|reflexivity].
  Qed.
  Lemma hist_fork (Y : arr2 V) nb E d :
    let h i := hist (nth i E []) (coll Y i) in
    (existsb (fun i => negb (hist_fits nb (h i))) (seq 0 d) = true /\ wmap (mps_hist Fork Y nb E) (seq 0 d) = Throws (Known ValueError)) \/
    (existsb (fun i => negb (hist_fits nb (h i))) (seq 0 d) = false /\ wmap (mps_hist Fork Y nb E) (seq 0 d) = Gives (map h (seq 0 d))).
  Proof.
    intros h. generalize (seq 0 d). induction l as [|i l IH]; [right; now split|].
    cbn. fold (h i). destruct (hist_fits nb (h i)) eqn:F; cbn [negb orb wbind].
    - destruct IH as [(A & B)|(A & B)]; rewrite B; [left|right]; (split; [exact A|reflexivity]).
    - left. split; reflexivity.
  Qed.
End Start.

(** ** forked workers: exactly the outcomes of C112 - C116 *)
Theorem C172_fork :
  forall V (N : Num V) vpow part (X : arr2 V) Y p nb bin jobs cpus r,
    mp_dissim_start vpow part Fork X Y p nb bin jobs cpus r <->
    exists r0, mp_dissim vpow part X Y p nb bin jobs cpus r0 /\ r = wlift r0.
Proof.
  intros V N vpow part X Y0 p nb bin jobs cpus r. set (Y := match Y0 with None => X | Some Y => Y end).
  assert (MH : forall (h : nat -> list nat) d, map (fun i => r_task (Z.to_nat nb) (nth i (map h (seq 0 d)) []) i) (seq 0 d) =
    map (fun i => r_task (Z.to_nat nb) (h i) i) (seq 0 d)).
  { intros h d. apply map_ext_in. intros i Hi. apply in_seq in Hi. f_equal.
    rewrite (nth_indep _ [] (h 0)) by (rewrite map_length, seq_length; lia). rewrite map_nth, seq_nth by lia. reflexivity. }
  split.
  - intros H. destruct H as [x Y1 H|E x Y1 H1 H2|E hs Rb bb out Y1 nb' d H1 H2 _ H3 H4 H5]; subst Y1.
    + rewrite prepare_fork in H. fold Y in H. destruct (mpd_prepare part X Y nb bin jobs cpus) as [E|e] eqn:P; [discriminate|]. injection H as <-.
      exists (Raise e). split; [|reflexivity]. now apply mpd_fail.
    + rewrite prepare_fork in H1. fold Y in H1, H2. destruct (mpd_prepare part X Y nb bin jobs cpus) as [E'|e] eqn:P; [|discriminate]. injection H1 as ->.
      destruct (hist_fork Y (Z.to_nat nb) E (ncol X)) as [(A & B)|(A & B)]; rewrite B in H2; [|discriminate]. injection H2 as <-.
      exists (Raise ValueError). split; [|reflexivity]. now apply (mpd_misfit vpow part X Y0 p nb bin jobs cpus E).
    + rewrite prepare_fork in H1. fold Y in H1, H2, H4, H5. destruct (mpd_prepare part X Y nb bin jobs cpus) as [E'|e] eqn:P; [|discriminate]. injection H1 as ->.
      subst nb' d. destruct (hist_fork Y (Z.to_nat nb) E (ncol X)) as [(A & B)|(A & B)]; rewrite B in H2; [discriminate|]. injection H2 as <-.
      rewrite (MH (fun i => hist (nth i E []) (coll Y i))) in H3.
      exists (Ok (Arr2 (nrow X) (nrow Y) (fun x y => out (x, y)))). split; [|reflexivity]. now apply (mpd_run vpow part X Y0 p nb bin jobs cpus E Rb bb out).
  - intros (r0 & H & ->). destruct H as [e Y1 H|E Y1 H1 H2|E Rb bb out Y1 nb' d H1 H2 H3 H4 H5]; subst Y1; cbn [wlift].
    + fold Y in H. apply mps_fail. rewrite prepare_fork. fold Y. now rewrite H.
    + fold Y in H1, H2. apply (mps_fail2 vpow part Fork X Y0 p nb bin jobs cpus E).
      * rewrite prepare_fork. fold Y. now rewrite H1.
      * fold Y. destruct (hist_fork Y (Z.to_nat nb) E (ncol X)) as [(A & B)|(A & B)]; [exact B|]. exfalso. congruence.
    + subst nb' d. fold Y in H1, H2, H3, H4, H5.
      destruct (hist_fork Y (Z.to_nat nb) E (ncol X)) as [(A & B)|(A & B)]; [exfalso; congruence|].
      rewrite <- (MH (fun i => hist (nth i E []) (coll Y i))) in H3.
      eapply (mps_run vpow part Fork X Y0 p nb bin jobs cpus E); [|exact B|reflexivity|exact H3|exact H4|exact H5].
      rewrite prepare_fork. fold Y. now rewrite H1.
Qed.

(** ** spawned workers, or workers of a fork server: always an exception; and if
    forked workers could return a result, it is a NameError *)
Theorem C172_never_returns :
  forall V (N : Num V) vpow part st (X : arr2 V) Y p nb bin jobs cpus,
    st <> Fork -> 1 <= ncol X ->
    (exists r, mp_dissim_start vpow part st X Y p nb bin jobs cpus r) /\
    forall r, mp_dissim_start vpow part st X Y p nb bin jobs cpus r ->
      (exists x, r = Throws x) /\
      ((exists D, mp_dissim vpow part X Y p nb bin jobs cpus (Ok D)) -> r = Throws NameErr).
Proof.
  intros V N vpow part st X Y0 p nb bin jobs cpus Hst Hd. set (Y := match Y0 with None => X | Some Y => Y end).
  assert (RN : forall A (v : A), reads st v = Throws NameErr) by (intros; destruct st; [contradiction|reflexivity|reflexivity]).
  assert (HH : forall E, wmap (mps_hist st Y (Z.to_nat nb) E) (seq 0 (ncol X)) = Throws NameErr).
  { intros E. apply wmap_throws; [|intros i _; unfold mps_hist; now rewrite RN]. destruct (ncol X); [lia|discriminate]. }
  split.
  - destruct (mps_prepare part st X Y nb bin jobs cpus) as [E|x] eqn:P.
    + exists (Throws NameErr). eapply mps_fail2; [exact P|apply HH].
    + exists (Throws x). now apply mps_fail.
  - intros r H. destruct H as [x Y1 H|E x Y1 H1 H2|E hs Rb bb out Y1 nb' d H1 H2 _ H3 H4 H5]; subst Y1.
    + split; [now exists x|]. intros (D & HD). fold Y in H.
      assert (PE : exists E, mpd_prepare part X Y nb bin jobs cpus = Ok E).
      { remember (Ok D) as r0 eqn:E0. destruct HD as [e Y1 HD|E Y1 HD _|E Rb bb out Y1 nb' d HD]; [discriminate|discriminate|]. now exists E. }
      destruct PE as (E & PE). rewrite prepare_split in PE. unfold mps_prepare in H.
      destruct (mps_check X Y nb jobs cpus) as [step|e] eqn:PC; [|discriminate]. cbn [wlift wbind bind] in *.
      destruct (String.prefix bin "mass").
      * rewrite wmap_throws with (x := NameErr) in H; [congruence| |intros i _; now rewrite RN].
        assert (EC : ncol X = ncol Y).
        { unfold mps_check in PC. destruct (Nat.eqb_spec (ncol X) (ncol Y)) as [EC|EC]; [exact EC|discriminate]. }
        rewrite <- EC. destruct (ncol X); [lia|discriminate].
      * destruct (String.prefix bin "range"); [|discriminate]. exfalso.
        rewrite (wmap_lift _ (fun i => range_edges (Z.to_nat nb) (coll Y i))) in H by reflexivity. rewrite PE in H. discriminate.
    + fold Y in H2. rewrite HH in H2. injection H2 as <-. split; [now exists NameErr|reflexivity].
    + fold Y in H2. subst nb' d. rewrite HH in H2. discriminate.
Qed.

(** ** The hypotheses can be met: four numbers in two bins, three workers *)
Example C172_case :
  forall r, mp_dissim_start xpow ref_part Spawn (rmat 4 1 ex_y) None (XFin 1) 2 "range" 3 8 r -> r = Throws NameErr.
Proof.
  intros r H. destruct (C172_never_returns _ _ xpow ref_part Spawn (rmat 4 1 ex_y) None (XFin 1) 2 "range" 3 8) as (_ & A); [discriminate|cbn; lia|].
  apply (A r H). destruct C112_case_run as (r0 & H0). destruct (C112_case r0 H0) as (D & -> & _). now exists D.
Qed.

Print Assumptions C172_fork.
Print Assumptions C172_never_returns.
