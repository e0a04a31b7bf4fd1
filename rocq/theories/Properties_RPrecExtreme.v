(** Property C201: when the R-precision of an object is 1, and when it is 0. *)
From Coq Require Import String.
From Coq Require Import ZArith Reals Lra List Arith Lia Bool Permutation.
From Flocq Require Import Core BinarySingleNaN.
From Verif Require Import Py Num NumT Arr Sort S_Neighbors M_IO M_GK M_SNN M_KNN M_MPEmpiric M_SparseKNN S_SparseKNN.
From Verif Require Import P_Neighbors P_F64 P_Hubness P_MPEmpiric P_MPEmpiric2 P_SparseKNN Properties_RPrec Properties_CountAcc.
Import ListNotations.
Local Open Scope nat_scope.

(** ** Specification *)
(** [x] is another object with the label of [i]; [y] has a different label *)
Definition mate_of (lab : list Z) (i x : nat) : Prop := x < length lab /\ x <> i /\ nth x lab 0%Z = nth i lab 0%Z.
Definition stranger_of (lab : list Z) (i y : nat) : Prop := y < length lab /\ nth y lab 0%Z <> nth i lab 0%Z.
(** the matrix stores a similarity for every mate, and [b] holds for every mate and stored stranger *)
Definition mates_vs_strangers (S : smat f64) (lab : list Z) (i : nat) (b : f64 -> f64 -> Prop) : Prop :=
  forall x, mate_of lab i x -> linked S i x /\ forall y, stranger_of lab i y -> linked S i y -> b (sval S i x) (sval S i y).
(** as many different stored strangers as [i] has mates, related by [b] to every stored mate *)
Definition crowded_out (S : smat f64) (lab : list Z) (i : nat) (b : f64 -> f64 -> Prop) : Prop :=
  exists l, NoDup l /\ length l = relevant lab i /\
    forall y, In y l -> stranger_of lab i y /\ linked S i y /\ forall x, mate_of lab i x -> linked S i x -> b (sval S i x) (sval S i y).

(** ** Shares of a count *)
Lemma lt_real (x y : f64) : is_finite x = true -> is_finite y = true -> nlt x y = true -> (B2R x < B2R y)%R.
Proof. intros Fx Fy H. change (Bltb x y = true) in H. rewrite Bltb_correct in H by assumption. revert H. case Rlt_bool_spec; [auto|discriminate]. Qed.
Lemma eq_real (x y : f64) : is_finite x = true -> is_finite y = true -> (neq x y = true <-> B2R x = B2R y).
Proof. intros Fx Fy. change (neq x y) with (Beqb x y). rewrite Beqb_correct by assumption. case Req_bool_spec; intuition discriminate. Qed.
Lemma share_full n : 0 < n -> (Z.of_nat n <= 2 ^ 50)%Z -> B2R (float_share true n n) = 1%R.
Proof.
  intros Hn Hb. destruct (frac_correct n n (le_n n) Hn ltac:(lia)) as (U & E). unfold float_share. cbv zeta. rewrite E.
  assert (INR n <> 0)%R by (apply not_0_INR; lia). replace (INR n / INR n)%R with 1%R by (field; assumption).
  unfold rnd. apply round_generic; [apply valid_rnd_round_mode|]. change 1%R with (bpow radix2 0). apply generic_format_bpow. vm_compute. discriminate.
Qed.
Lemma share_none n : 0 < n -> (Z.of_nat n <= 2 ^ 50)%Z -> B2R (float_share true n 0) = 0%R.
Proof.
  intros Hn Hb. destruct (frac_correct 0 n ltac:(lia) Hn ltac:(lia)) as (U & E). unfold float_share. cbv zeta. rewrite E. cbn [INR]. unfold Rdiv. rewrite Rmult_0_l. unfold rnd. apply round_0. apply valid_rnd_round_mode.
Qed.
Lemma share_extremes n c : 0 < n -> c <= n -> (Z.of_nat n <= 2 ^ 50)%Z ->
  (neq (float_share true n c) n1 = true <-> c = n) /\ (neq (float_share true n c) n0 = true <-> c = 0).
Proof.
  intros Hn Hc Hb. destruct (share_close true n c Hn Hc Hb) as (F & _). destruct (share_close true n n Hn (le_n n) Hb) as (Fn & _). destruct (share_close true n 0 Hn (Nat.le_0_l n) Hb) as (Fz & _).
  change (is_finite (float_share true n c) = true) in F. change (is_finite (float_share true n n) = true) in Fn. change (is_finite (float_share true n 0) = true) in Fz.
  destruct n1_f64 as (N1 & F1). destruct n0_f64 as (N0 & F0). rewrite !eq_real, N1, N0 by assumption. split; split.
  - intros E. destruct (Nat.eq_dec c n) as [->|Hne]; [reflexivity|exfalso]. destruct (share_order true n c n Hn Hc (le_n n) Hb) as ((_ & L) & _).
    specialize (L ltac:(lia)). apply lt_real in L; [|assumption|assumption]. rewrite share_full in L by assumption. lra.
  - intros ->. now apply share_full.
  - intros E. destruct c as [|c]; [reflexivity|exfalso]. destruct (share_order true n 0 (S c) Hn ltac:(lia) Hc Hb) as ((_ & L) & _).
    specialize (L ltac:(lia)). apply lt_real in L; [|assumption|assumption]. rewrite share_none in L by assumption. lra.
  - intros ->. now apply share_none.
Qed.

(** ** Lists *)
Definition matesl (lab : list Z) (i : nat) : list nat := filter (fun x => negb (x =? i) && (nth x lab 0 =? nth i lab 0)%Z) (seq 0 (length lab)).
Lemma matesl_in lab i x : In x (matesl lab i) <-> mate_of lab i x.
Proof. unfold matesl, mate_of. rewrite filter_In, in_seq, andb_true_iff, negb_true_iff, Nat.eqb_neq, Z.eqb_eq. intuition lia. Qed.
Lemma matesl_len lab i : length (matesl lab i) = relevant lab i.
Proof. reflexivity. Qed.
Lemma matesl_nd lab i : NoDup (matesl lab i).
Proof. apply NoDup_filter, seq_NoDup. Qed.
Lemma missing (l m : list nat) : NoDup m -> length l < length m -> exists x, In x m /\ ~ In x l.
Proof.
  intros Nd H. destruct (Forall_Exists_dec (fun x => In x l) (fun x => in_dec Nat.eq_dec x l) m) as [F|E].
  - exfalso. rewrite Forall_forall in F. assert (length m <= length l); [|lia]. now apply NoDup_incl_length.
  - now apply Exists_exists in E.
Qed.
Definition hitl (lab : list Z) (i : nat) (nn : list nat) := filter (fun x => (nth x lab 0 =? nth i lab 0)%Z) nn.
Lemma filter_length_le {A} (f : A -> bool) l : length (filter f l) <= length l.
Proof. induction l as [|a l IH]; [auto|]. cbn [filter]. destruct (f a); cbn [length]; lia. Qed.
Lemma filter_full {A} (f : A -> bool) l : length (filter f l) = length l -> forall x, In x l -> f x = true.
Proof.
  induction l as [|a l IH]; intros H x Hx; [contradiction|]. cbn [filter] in H. destruct (f a) eqn:E.
  - cbn [length] in H. destruct Hx as [<-|Hx]; [exact E|apply IH; [lia|exact Hx]].
  - exfalso. pose proof (filter_length_le f l). cbn [length] in H. lia.
Qed.

Section Top.
  Variables (S : smat f64) (lab : list Z) (i : nat) (nn : list nat).
  Hypothesis HC : scol S = length lab.
  Hypothesis T : top_list (sval S i) (fun x => linked S i x /\ x <> i) (Nat.min (relevant lab i) (n_linked S i)) nn.

  Lemma linked_lt x : linked S i x -> x < length lab.
  Proof. intros (H & _). lia. Qed.
  Lemma others_in x : In x (filter (fun x => negb (x =? i) && is_stored S i x) (seq 0 (scol S))) <-> linked S i x /\ x <> i.
  Proof.
    rewrite filter_In, in_seq, andb_true_iff, negb_true_iff, Nat.eqb_neq. unfold linked, is_stored. destruct (stored S i x) as [v|].
    - split; [intros (A & B & _); split; [split; [lia|eauto]|exact B]|intros ((A & _) & B); repeat split; auto; lia].
    - split; [intros (_ & _ & H); discriminate|intros ((_ & v & H) & _); discriminate].
  Qed.
  Lemma nn_hits x : In x (hitl lab i nn) -> mate_of lab i x /\ linked S i x /\ In x nn.
  Proof.
    unfold hitl. rewrite filter_In, Z.eqb_eq. intros (Hx & E). destruct (tl_in _ _ _ _ T x Hx) as (L & N). pose proof (linked_lt x L). repeat split; auto; apply L.
  Qed.
  Lemma hits_le : hits lab i nn <= relevant lab i.
  Proof.
    change (length (hitl lab i nn) <= length (matesl lab i)). apply NoDup_incl_length; [apply NoDup_filter, (tl_nodup _ _ _ _ T)|].
    intros x Hx. apply matesl_in. now apply nn_hits.
  Qed.
  Lemma len_le : length nn <= relevant lab i.
  Proof. rewrite (tl_len _ _ _ _ T). lia. Qed.

  Lemma perfect_if : mates_vs_strangers S lab i (fun m s => nlt s m = true) -> hits lab i nn = relevant lab i.
  Proof.
    intros H. assert (L : length nn = relevant lab i).
    { rewrite (tl_len _ _ _ _ T). apply Nat.min_l. rewrite <- matesl_len. unfold n_linked. apply NoDup_incl_length; [apply matesl_nd|].
      intros x Hx. apply matesl_in in Hx. apply others_in. split; [now apply H|apply Hx]. }
    rewrite <- L. unfold hits. f_equal. clear L. assert (G : forall y, In y nn -> (nth y lab 0 =? nth i lab 0)%Z = true).
    { intros y Hy. destruct (tl_in _ _ _ _ T y Hy) as (Ly & Ny). destruct (nth y lab 0 =? nth i lab 0)%Z eqn:E; [reflexivity|exfalso].
      apply Z.eqb_neq in E. apply in_split in Hy as HS. destruct HS as (l1 & l2 & El).
      destruct (missing (l1 ++ l2) (matesl lab i) (matesl_nd lab i)) as (x & Hx & Hn).
      { pose proof len_le as Q. rewrite El in Q. rewrite matesl_len. rewrite app_length in *. cbn [length] in Q. lia. }
      apply matesl_in in Hx. assert (Hxn : ~ In x nn). { rewrite El. rewrite in_app_iff in *. intros [A|[A|A]]; [tauto| |tauto]. subst y. apply E. apply Hx. }
      destruct (H x Hx) as (Lx & B). specialize (B y (conj (linked_lt y Ly) E) Ly). pose proof (tl_best _ _ _ _ T x y (conj Lx (proj1 (proj2 Hx))) Hxn Hy). cbv beta in B. congruence. }
    clear T. induction nn as [|y l IH]; [reflexivity|]. cbn [filter]. rewrite (G y (or_introl eq_refl)). f_equal. apply IH. intros z Hz. apply G. now right.
  Qed.

  Lemma perfect_only : hits lab i nn = relevant lab i -> mates_vs_strangers S lab i (fun m s => nlt m s = false).
  Proof.
    intros H x Hx. assert (I : incl (matesl lab i) (hitl lab i nn)).
    { apply NoDup_length_incl; [apply NoDup_filter, (tl_nodup _ _ _ _ T)| |].
      - change (length (matesl lab i) <= hits lab i nn). now rewrite H.
      - intros z Hz. apply matesl_in. now apply nn_hits. }
    assert (Hx' := Hx). apply matesl_in in Hx'. apply I in Hx'. apply nn_hits in Hx' as (_ & Lx & Hxn). split; [exact Lx|].
    intros y (Hy & Ny) Ly. apply (tl_best _ _ _ _ T y x); [split; [exact Ly|intros ->; tauto]| |exact Hxn].
    intros Hyn. pose proof len_le as Q. assert (G : length (filter (fun x => (nth x lab 0 =? nth i lab 0)%Z) nn) = length nn). { unfold hits in H. pose proof (filter_length_le (fun x => (nth x lab 0 =? nth i lab 0)%Z) nn). lia. }
    pose proof (filter_full _ _ G y Hyn) as E. apply Z.eqb_eq in E. tauto.
  Qed.

  Lemma zero_if : 0 < relevant lab i -> crowded_out S lab i (fun m s => nlt m s = true) \/ (forall x, mate_of lab i x -> ~ linked S i x) -> hits lab i nn = 0.
  Proof.
    intros Hr H. change (length (hitl lab i nn) = 0). destruct (hitl lab i nn) as [|x h] eqn:E; [reflexivity|exfalso].
    assert (Hx : In x (hitl lab i nn)) by (rewrite E; now left). apply nn_hits in Hx as (Mx & Lx & Ix). destruct H as [(l & Nd & Len & Hl)|H]; [|now apply (H x)].
    apply in_split in Ix as HS. destruct HS as (l1 & l2 & El). destruct (missing (l1 ++ l2) l Nd) as (y & Hy & Hn).
    { pose proof len_le as Q. rewrite El in Q. rewrite Len. rewrite app_length in *. cbn [length] in Q. lia. }
    destruct (Hl y Hy) as ((_ & Ny) & Ly & B). assert (Hyn : ~ In y nn). { rewrite El. rewrite in_app_iff in *. intros [A|[A|A]]; [tauto| |tauto]. subst y. apply Ny. apply Mx. }
    specialize (B x Mx Lx). cbv beta in B. rewrite (tl_best _ _ _ _ T y x) in B; [discriminate| |exact Hyn|exact Ix]. split; [exact Ly|intros ->; tauto].
  Qed.

  Lemma zero_only : hits lab i nn = 0 -> crowded_out S lab i (fun m s => nlt s m = false) \/ (forall x, mate_of lab i x -> ~ linked S i x).
  Proof.
    intros H. assert (E0 : hitl lab i nn = []) by (apply length_zero_iff_nil; exact H).
    assert (Str : forall y, In y nn -> nth y lab 0%Z <> nth i lab 0%Z).
    { intros y Hy E. assert (Q : In y (hitl lab i nn)) by (unfold hitl; rewrite filter_In, Z.eqb_eq; tauto). rewrite E0 in Q. contradiction. }
    destruct (Nat.le_gt_cases (relevant lab i) (n_linked S i)) as [C|C].
    - left. exists nn. split; [apply (tl_nodup _ _ _ _ T)|]. split; [rewrite (tl_len _ _ _ _ T); now apply Nat.min_l|].
      intros y Hy. destruct (tl_in _ _ _ _ T y Hy) as (Ly & _). split; [split; [now apply linked_lt|now apply Str]|]. split; [exact Ly|].
      intros x (_ & Nx & Ex) Lx. apply (tl_best _ _ _ _ T x y); [tauto| |exact Hy]. intros Hx. now apply (Str x Hx).
    - right. intros x (_ & Nx & Ex) Lx. assert (I : incl (filter (fun x => negb (x =? i) && is_stored S i x) (seq 0 (scol S))) nn).
      { apply NoDup_length_incl; [apply (tl_nodup _ _ _ _ T)| |].
        - rewrite (tl_len _ _ _ _ T). change (n_linked S i <= Nat.min (relevant lab i) (n_linked S i)). lia.
        - intros z Hz. apply others_in. now apply (tl_in _ _ _ _ T). }
      apply (Str x); [|exact Ex]. apply I, others_in. tauto.
  Qed.
End Top.

(** ** The theorems *)
Theorem C201_extremes :
  forall argpart, argpart_ok argpart ->
  forall rp, (forall i l, Permutation (rp i l) l) ->
  forall sh, (forall (i j : nat) l, Permutation (sh i j l) l) ->
  forall vsum (S : smat f64) (lab : list Z) (yp : nat),
    similarities S (length lab) -> two_share lab -> (Z.of_nat (length lab) <= 2 ^ 50)%Z ->
    exists out, r_precision argpart rp sh vsum false S lab "similarity" yp = Ok out /\
      forall i, i < length lab -> (exists x, mate_of lab i x) ->
        (mates_vs_strangers S lab i (fun m s => nlt s m = true) -> neq (nth i (rp_item out) nnan) n1 = true) /\
        (neq (nth i (rp_item out) nnan) n1 = true -> mates_vs_strangers S lab i (fun m s => nlt m s = false)) /\
        (crowded_out S lab i (fun m s => nlt m s = true) \/ (forall x, mate_of lab i x -> ~ linked S i x) ->
           neq (nth i (rp_item out) nnan) n0 = true) /\
        (neq (nth i (rp_item out) nnan) n0 = true ->
           crowded_out S lab i (fun m s => nlt s m = false) \/ (forall x, mate_of lab i x -> ~ linked S i x)).
Proof.
  intros argpart AP rp RP sh SH vsum S lab yp HS Hm Hb.
  destruct (C100_value_per_object argpart AP rp RP sh SH vsum S lab yp HS Hm) as (out & E & _ & _ & H).
  exists out. split; [exact E|]. intros i Hi (x0 & Hx0). destruct (H i Hi) as ((nn & T & V) & _). pose proof (si_col _ _ HS) as HC.
  assert (Hr : 0 < relevant lab i). { rewrite <- matesl_len. apply matesl_in in Hx0. destruct (matesl lab i); [contradiction|cbn; lia]. }
  assert (Hr50 : (Z.of_nat (relevant lab i) <= 2 ^ 50)%Z).
  { assert (relevant lab i <= length lab); [|lia]. unfold relevant. etransitivity; [apply filter_length_le|]. now rewrite seq_length. }
  pose proof (hits_le S lab i nn HC T) as Hh. destruct (share_extremes _ _ Hr Hh Hr50) as (S1 & S0).
  assert (V1 : neq (nth i (rp_item out) nnan) n1 = true <-> hits lab i nn = relevant lab i).
  { rewrite V. destruct (hits lab i nn =? 0) eqn:Z0; [|exact S1]. apply Nat.eqb_eq in Z0. rewrite Z0. split; [vm_compute; discriminate|lia]. }
  assert (V0 : neq (nth i (rp_item out) nnan) n0 = true <-> hits lab i nn = 0).
  { rewrite V. destruct (hits lab i nn =? 0) eqn:Z0; [|exact S0]. apply Nat.eqb_eq in Z0. rewrite Z0. split; [reflexivity|intros _; vm_compute; reflexivity]. }
  rewrite V1, V0. split; [now apply perfect_if|]. split; [now apply perfect_only|]. split; [now apply zero_if|]. now apply zero_only.
Qed.

(** ** The hypotheses can be met: object 0 retrieves both mates; object 3 is more similar to
    object 0 than to its only mate; object 4 has no stored similarity with its mate *)
Definition exT : smat f64 := sp_of [[9;8;7;5;0]; [8;9;6;2;1]; [7;6;9;0;3]; [5;2;0;9;1]; [0;1;3;0;9]]%Z.
Definition exTlab : list Z := [5;5;5;6;6]%Z.
Example C201_case : similarities exT (length exTlab) /\ two_share exTlab /\ mate_of exTlab 0 1 /\ mate_of exTlab 3 4 /\
  mates_vs_strangers exT exTlab 0 (fun m s => nlt s m = true) /\ crowded_out exT exTlab 3 (fun m s => nlt m s = true) /\
  (forall x, mate_of exTlab 4 x -> ~ linked exT 4 x) /\
  match r_precision ref_argpart idp idp2 vsumf false exT exTlab "similarity" 2 with
  | Ok out => map (fun v => (neq v n1, neq v n0)) (rp_item out) = [(true, false); (true, false); (true, false); (false, true); (false, true)]
  | Raise _ => False
  end.
Proof.
  split; [apply sims_b_ok; vm_compute; reflexivity|]. split; [exists 0, 1; repeat split; auto; cbn; lia|].
  split; [repeat split; cbn; lia|]. split; [repeat split; cbn; lia|].
  split; [|split; [|split]].
  - intros x (Hx & Nx & Ex). cbn in Hx. assert (C : x = 1 \/ x = 2) by (do 5 (destruct x as [|x]; [cbn in Ex; lia|]); lia). split.
    + apply linked_b. destruct C as [-> | ->]; (split; [cbn; lia|vm_compute; reflexivity]).
    + intros y (Hy & Ny) Ly. cbn in Hy. assert (Cy : y = 3 \/ y = 4) by (do 5 (destruct y as [|y]; [cbn in Ny; lia|]); lia).
      destruct C as [-> | ->], Cy as [-> | ->]; vm_compute; reflexivity.
  - exists [0]. split; [repeat constructor; cbn; tauto|]. split; [reflexivity|]. intros y [<-|[]].
    split; [split; [cbn; lia|cbn; lia]|]. split; [apply linked_b; split; [cbn; lia|vm_compute; reflexivity]|].
    intros x (Hx & Nx & Ex) _. cbn in Hx. assert (C : x = 4) by (do 5 (destruct x as [|x]; [cbn in Ex; lia|]); lia). subst. vm_compute. reflexivity.
  - intros x (Hx & Nx & Ex). cbn in Hx. assert (C : x = 3) by (do 5 (destruct x as [|x]; [cbn in Ex; lia|]); lia). subst.
    rewrite linked_b. intros (_ & H). vm_compute in H. discriminate.
  - vm_compute. reflexivity.
Qed.

Print Assumptions C201_extremes.
