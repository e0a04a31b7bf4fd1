(** C191: the measures of the class Hubness in float64 — the Gini index for any number
    of objects, and the share of the slots that hubs occupy. *)
From Coq Require Import String.
From Coq Require Import ZArith List Arith Lia Bool Permutation Reals Lra.
From Flocq Require Import Core BinarySingleNaN.
From Verif Require Import Py Num NumT NumPow Arr Sort Conc S_Neighbors S_HubnessClass P_Neighbors M_Hubness M_Dist M_KNN M_HubnessClass.
From Verif Require Import P_Hubness P_HubnessMain P_F64 P_KNN P_HubnessClass P_HubnessReal P_HubnessClass2 P_HubnessClass3.
From Verif Require Import P_GK2 P_F1 P_LSAcc P_GKAcc P_F1Acc P_MeasAcc Properties_HubnessClass.
Import ListNotations.
Local Open Scope nat_scope.

(** the exact Gini index *)
Definition exact_gini (Nk : list Z) : R :=
  (IZR (pair_differences Nk) / IZR (2 * Z.of_nat (length Nk) * total Nk))%R.

(** numpy's integers are exact below 2^63; their conversion to float64 is rounded *)
Theorem C191_gini_error :
  forall (mode : string) (Nk : list Z),
    (forall x, In x Nk -> (0 <= x)%Z) -> (0 < total Nk)%Z ->
    (2 * Z.of_nat (length Nk) * total Nk < 2 ^ 63)%Z ->
    let g := gini_index (V:=f64) mode Nk in
    nle n0 g = true /\ nle g n1 = true /\
    (Rabs (B2R g - exact_gini Nk) <= bpow radix2 (-50) * exact_gini Nk)%R /\
    (neq g n0 = true <-> all_equal Nk) /\
    ((Z.of_nat (length Nk) <= 2 ^ 50)%Z -> nlt g n1 = true).
Proof.
  intros mode Nk Hn Hp Hb g. set (n := Z.of_nat (length Nk)) in *.
  assert (Et : total Nk = sumZ Nk) by apply fold_right_sumZ.
  unfold exact_gini. change (pair_differences Nk) with (pairsum Nk). fold n. rewrite Et in *.
  assert (Hne : Nk <> []) by (intros ->; cbn in Hp; lia).
  assert (Hl : 1 <= length Nk) by (destruct Nk; [congruence|cbn; lia]).
  destruct (pairsum_bound Nk Hn) as (B0 & B). specialize (B Hne).
  pose proof (pairsum_zero Nk) as PZ.
  set (num := pairsum Nk) in *. set (den := (2 * n * sumZ Nk)%Z) in *.
  assert (B2 : (0 <= num < den)%Z) by (unfold den, n; nia).
  assert (Eg : g = ndiv (nofnat (Z.to_nat num)) (nofnat (Z.to_nat den))).
  { unfold g, gini_index, nofnat. rewrite gini_num_pairsum. fold num. fold n. fold den. rewrite !Z2Nat.id by lia. reflexivity. }
  destruct (big_quot (Z.to_nat num) (Z.to_nat den)) as (F & P & U); [lia|lia|lia|].
  rewrite <- Eg in *. rewrite !INR_IZR_INZ, !Z2Nat.id in P by lia.
  destruct n0_f64 as (Z1 & Z2). destruct n1_f64 as (O1 & O2).
  assert (Pd : (0 < IZR den)%R) by (apply IZR_lt; lia). assert (Pn : (0 <= IZR num)%R) by (apply IZR_le; lia).
  assert (PX : (0 <= IZR num / IZR den)%R) by (apply Rmult_le_pos; [exact Pn|left; now apply Rinv_0_lt_compat]).
  split; [rewrite (nle_B2R _ _ Z2 F), Z1; lra|]. split; [rewrite (nle_B2R _ _ F O2), O1; lra|]. split; [|split].
  - replace (bpow radix2 (-50)) with (2 * (INR 4 * u53))%R.
    2:{ unfold u53. replace (2 * (INR 4 * bpow radix2 (-53)))%R with (bpow radix2 3 * bpow radix2 (-53))%R by (simpl; lra). rewrite <- bpow_plus. reflexivity. }
    apply pw_abs; [exact PX| |exact P]. pose proof u_bounds. simpl. lra.
  - rewrite <- PZ. change (neq g n0) with (Beqb g n0). rewrite Beqb_correct by assumption. change (B2R n0) with (B2R (n0 : f64)). rewrite Z1. split.
    + intros H. destruct (Req_bool_spec (B2R g) 0) as [E|E]; [|discriminate]. destruct (Z.eq_dec num 0) as [E0|E0]; [exact E0|exfalso].
      assert (0 < B2R g)%R; [|lra]. apply (pw_pos' 4 (IZR num / IZR den)); [|exact P]. apply Rmult_lt_0_compat; [apply IZR_lt; lia|now apply Rinv_0_lt_compat].
    + intros E0. rewrite E0 in P. apply Req_bool_true. destruct P as (P1 & P2). unfold Rdiv in P1, P2. rewrite !Rmult_0_l in P1, P2. lra.
  - intros Hn50. apply nlt_B2R; [exact F|exact O2|]. rewrite O1.
    assert (G : (IZR num / IZR den <= INR (length Nk - 1) / INR (length Nk))%R).
    { assert (0 < INR (length Nk))%R by (apply lt_0_INR; lia). apply (Rmult_le_reg_r (IZR den * INR (length Nk))); [now apply Rmult_lt_0_compat|].
      replace (IZR num / IZR den * (IZR den * INR (length Nk)))%R with (IZR num * INR (length Nk))%R by (field; lra).
      replace (INR (length Nk - 1) / INR (length Nk) * (IZR den * INR (length Nk)))%R with (INR (length Nk - 1) * IZR den)%R by (field; lra).
      rewrite !INR_IZR_INZ, <- !mult_IZR. apply IZR_le. unfold den, n in *. nia. }
    apply (frac_below1 (length Nk - 1) (length Nk)); [lia|exact Hn50|].
    destruct P as (P1 & P2). apply Rle_trans with (1 := P2). apply Rmult_le_compat_r; [pose proof (hi_pow 4); lra|exact G].
Qed.

(** occurrences of the hubs *)
Definition hub_slots (f : hub_fit (V:=f64)) : nat := sum_nat (map (fun x => nth x (f_occ f) 0) (f_hubs f)).

Lemma slots_bound (argpart : list f64 -> list nat -> list nat) (AP : argpart_ok argpart) rdist vsum vpow metric k (hub_size : f64) bs n_jobs rps has_self X Y f :
    (1 <= bs)%Z -> 1 <= k -> in_wf X rps -> 0 < in_rows X ->
    fit_transform rdist vsum vpow argpart metric k hub_size bs n_jobs rps has_self X Y (Ok f) ->
    hub_slots f <= in_rows X * k.
Proof.
  intros Hb Hk Hw Hr H. destruct (C43_measures argpart AP rdist vsum vpow metric k hub_size bs n_jobs rps has_self X Y f Hb Hk Hw Hr H) as (_ & L & _ & T & _ & Hh & _).
  assert (ND : NoDup (f_hubs f)).
  { destruct (fit_rows f64_cmp rdist vsum vpow argpart AP metric k hub_size bs n_jobs rps has_self X Y f Hb Hw H) as (M & _).
    unfold measures in M. apply bind_ok_inv in M as ([] & _ & M). assert (Ex : forall a b : hub_fit (V:=f64), Ok a = Ok b -> a = b) by (intros ? ? [=]; assumption).
    apply Ex in M. rewrite <- M. cbn [f_hubs]. unfold hubs. apply NoDup_filter, seq_NoDup. }
  unfold hub_slots. apply Nat2Z.inj_le. rewrite <- T.
  assert (I : incl (f_hubs f) (seq 0 (length (f_occ f)))) by (intros x Hx; apply Hh in Hx; apply in_seq; lia).
  assert (G : forall (g : nat -> nat) l m, NoDup l -> incl l m -> sum_nat (map g l) <= sum_nat (map g m)).
  { intros g l. induction l as [|a l IH]; intros m N J; [simpl; lia|]. inversion N; subst.
    destruct (in_split a m (J a (or_introl eq_refl))) as (m1 & m2 & ->).
    specialize (IH (m1 ++ m2)%list H3). rewrite map_app in *. cbn [map] in *.
    assert (A : forall u v, sum_nat (u ++ v) = sum_nat u + sum_nat v) by (induction u as [|b u IHu]; intros v; [reflexivity|cbn [app sum_nat]; rewrite IHu; lia]).
    rewrite A in *. cbn [sum_nat].
    enough (sum_nat (map g l) <= sum_nat (map g m1) + sum_nat (map g m2)) by lia.
    apply IH. intros x Hx. assert (x <> a) by (intros ->; contradiction). specialize (J x (or_intror Hx)). apply in_app_iff in J. apply in_app_iff.
    destruct J as [J|[J|J]]; auto; congruence. }
  specialize (G (fun x => nth x (f_occ f) 0) _ _ ND I). rewrite map_nth_seq_nat in G.
  assert (S1 : forall l, total (map Z.of_nat l) = Z.of_nat (sum_nat l)) by (induction l as [|a l IH]; [reflexivity|unfold total in *; cbn [map fold_right sum_nat]; rewrite IH; lia]).
  rewrite S1. lia.
Qed.

Lemma occ_pw S k n : 1 <= k -> 0 < n -> S <= n * k -> (Z.of_nat (n * k) <= 2 ^ 53)%Z ->
  pw 2 (INR S / INR (n * k)) (rnd (rnd (INR S / INR k) / INR n)).
Proof.
  intros Hk Hn HS Hb. assert (Pk : (0 < INR k)%R) by (apply lt_0_INR; lia). assert (Pn : (0 < INR n)%R) by (apply lt_0_INR; lia).
  assert (PS : (0 <= INR S / INR k)%R) by (apply Rmult_le_pos; [apply pos_INR|left; now apply Rinv_0_lt_compat]).
  assert (E : (INR S / INR (n * k) = INR S / INR k / INR n)%R) by (rewrite mult_INR; field; lra). rewrite E.
  destruct (Nat.eq_dec S 0) as [->|N0].
  { replace (INR 0 / INR k)%R with 0%R by (simpl; unfold Rdiv; ring). rewrite rnd_0. replace (0 / INR n)%R with 0%R by (unfold Rdiv; ring). rewrite rnd_0. unfold pw. lra. }
  assert (B1 : (bpow radix2 (-53) <= INR S / INR k)%R) by (apply frac_big; nia).
  assert (W : pw 1 (INR S / INR k) (rnd (INR S / INR k))) by (apply pw_rnd; [exact PS|apply (normal_ge _ (-53)); [lia|exact B1]|apply pw_refl]).
  assert (B2 : (bpow radix2 (-53) <= rnd (INR S / INR k))%R).
  { rewrite <- (rnd_gen (bpow radix2 (-53))); [now apply rnd_le|apply generic_format_bpow; vm_compute; discriminate]. }
  apply (pw_rnd 1).
  - apply Rmult_le_pos; [exact PS|left; now apply Rinv_0_lt_compat].
  - apply (normal_ge _ (-53 + -53)); [lia|]. rewrite bpow_plus. apply Rmult_le_compat; [apply bpow_ge_0|apply bpow_ge_0|exact B2|].
    apply inv_big; nia.
  - apply (pw_mul 1 0); [exact PS|left; now apply Rinv_0_lt_compat|exact W|apply pw_refl].
Qed.

(** the share of the slots occupied by hubs; 1 only if hubs occupy all slots *)
Theorem C191_hub_occurrence_error :
  forall argpart, argpart_ok argpart ->
  forall rdist vsum vpow metric k (hub_size : f64) bs n_jobs rps has_self X Y f,
    (1 <= bs)%Z -> 1 <= k -> in_wf X rps -> 0 < in_rows X ->
    fit_transform rdist vsum vpow argpart metric k hub_size bs n_jobs rps has_self X Y (Ok f) ->
    (Z.of_nat (in_rows X * k) <= 2 ^ 50)%Z ->
    let exact := (INR (hub_slots f) / INR (in_rows X * k))%R in
    hub_slots f <= in_rows X * k /\
    (Rabs (B2R (f_hub_occ f) - exact) <= 3 * bpow radix2 (-53) * exact)%R /\
    (neq (f_hub_occ f) n1 = true <-> hub_slots f = in_rows X * k) /\
    (neq (f_hub_occ f) n0 = true <-> hub_slots f = 0).
Proof.
  intros argpart AP rdist vsum vpow metric k hs bs nj rps hself X Y f Hb Hk Hw Hr H Hs exact.
  pose proof (slots_bound argpart AP rdist vsum vpow metric k hs bs nj rps hself X Y f Hb Hk Hw Hr H) as SB.
  destruct (C43_measures argpart AP rdist vsum vpow metric k hs bs nj rps hself X Y f Hb Hk Hw Hr H) as (_ & _ & _ & _ & _ & _ & _ & Ho & _).
  destruct (Ho ltac:(lia)) as (L0 & L1 & E). change (sum_nat (map (fun x : nat => nth x (f_occ f) 0) (f_hubs f))) with (hub_slots f) in E.
  set (S := hub_slots f) in *. set (n := in_rows X) in *.
  pose proof (occ_pw S k n Hk Hr SB ltac:(lia)) as P. rewrite <- E in P. fold exact in P.
  destruct n0_f64 as (Z1 & Z2). destruct n1_f64 as (O1 & O2).
  assert (F : is_finite (f_hub_occ f) = true).
  { destruct (f_hub_occ f) as [s|s| |s m e B]; try reflexivity; try discriminate L0. destruct s; discriminate. }
  assert (Hnk : 0 < n * k) by nia.
  pose proof (ratio_le1 S (n * k) Hnk SB) as X01. fold exact in X01. pose proof u_bounds as U.
  split; [exact SB|]. split; [|split].
  - destruct P as (P1 & P2). simpl in P1, P2. change (bpow radix2 (-53)) with u53. apply Rabs_le. split; nra.
  - change (neq (f_hub_occ f) n1) with (Beqb (f_hub_occ f) n1). rewrite Beqb_correct by assumption. change (B2R n1) with (B2R (n1 : f64)). rewrite O1. split.
    + intros Hq. destruct (Req_bool_spec (B2R (f_hub_occ f)) 1) as [Eq|Eq]; [|discriminate].
      destruct (Nat.eq_dec S (n * k)) as [Es|Es]; [exact Es|exfalso].
      assert (B2R (f_hub_occ f) < 1)%R; [|lra]. apply (frac_below1 S (n * k)); [lia|lia|].
      destruct P as (_ & P2). apply Rle_trans with (1 := P2). apply Rmult_le_compat_l; [apply X01|]. apply Rle_pow; [lra|lia].
    + intros Es. apply Req_bool_true. rewrite E, Es, mult_INR.
      assert (Pk : (0 < INR k)%R) by (apply lt_0_INR; lia). assert (Pn : (0 < INR n)%R) by (apply lt_0_INR; lia).
      replace (INR n * INR k / INR k)%R with (INR n) by (field; lra).
      destruct (f64_ofZ_exact (Z.of_nat n)) as (En & Fn); [nia|]. rewrite <- INR_IZR_INZ in En.
      assert (Rn : rnd (INR n) = INR n) by (rewrite <- En; apply rnd_gen, generic_format_B2R). rewrite Rn.
      replace (INR n / INR n)%R with 1%R by (field; lra). apply rnd_gen. change 1%R with (bpow radix2 0). apply generic_format_bpow. vm_compute. discriminate.
  - change (neq (f_hub_occ f) n0) with (Beqb (f_hub_occ f) n0). rewrite Beqb_correct by assumption. change (B2R n0) with (B2R (n0 : f64)). rewrite Z1. split.
    + intros Hq. destruct (Req_bool_spec (B2R (f_hub_occ f)) 0) as [Eq|Eq]; [|discriminate].
      destruct (Nat.eq_dec S 0) as [Es|Es]; [exact Es|exfalso].
      assert (0 < B2R (f_hub_occ f))%R; [|lra]. apply (pw_pos' 2 exact); [|exact P]. apply Rmult_lt_0_compat; [apply lt_0_INR; lia|apply Rinv_0_lt_compat, lt_0_INR; lia].
    + intros Es. apply Req_bool_true. destruct P as (P1 & P2). unfold exact in P1, P2. rewrite Es in P1, P2. simpl (INR 0) in P1, P2. unfold Rdiv in P1, P2. rewrite !Rmult_0_l in P1, P2. lra.
Qed.

(** two fits: different shares are in the right order; with equally many query
    objects equal shares (of different k, hub sizes or data) are equal numbers *)
Theorem C191_hub_occurrence_order :
  forall argpart, argpart_ok argpart ->
  forall rdist vsum vpow metric k (hub_size : f64) bs n_jobs rps has_self X Y f
         rdist' vsum' vpow' metric' k' (hub_size' : f64) bs' n_jobs' rps' has_self' X' Y' f',
    (1 <= bs)%Z -> 1 <= k -> in_wf X rps -> 0 < in_rows X ->
    fit_transform rdist vsum vpow argpart metric k hub_size bs n_jobs rps has_self X Y (Ok f) ->
    (1 <= bs')%Z -> 1 <= k' -> in_wf X' rps' -> 0 < in_rows X' ->
    fit_transform rdist' vsum' vpow' argpart metric' k' hub_size' bs' n_jobs' rps' has_self' X' Y' (Ok f') ->
    let share := (INR (hub_slots f) / INR (in_rows X * k))%R in
    let share' := (INR (hub_slots f') / INR (in_rows X' * k'))%R in
    ((Z.of_nat (in_rows X * k) <= 2 ^ 25)%Z -> (Z.of_nat (in_rows X' * k') <= 2 ^ 25)%Z ->
       (share < share')%R -> nlt (f_hub_occ f) (f_hub_occ f') = true) /\
    ((Z.of_nat (in_rows X * k) < 2 ^ 53)%Z -> (Z.of_nat (in_rows X' * k') < 2 ^ 53)%Z ->
       in_rows X = in_rows X' -> share = share' -> neq (f_hub_occ f) (f_hub_occ f') = true).
Proof.
  intros argpart AP rdist vsum vpow metric k hs bs nj rps hself X Y f rdist' vsum' vpow' metric' k' hs' bs' nj' rps' hself' X' Y' f' Hb Hk Hw Hr H Hb' Hk' Hw' Hr' H' share share'.
  pose proof (slots_bound argpart AP rdist vsum vpow metric k hs bs nj rps hself X Y f Hb Hk Hw Hr H) as SB.
  pose proof (slots_bound argpart AP rdist' vsum' vpow' metric' k' hs' bs' nj' rps' hself' X' Y' f' Hb' Hk' Hw' Hr' H') as SB'.
  destruct (C43_measures argpart AP rdist vsum vpow metric k hs bs nj rps hself X Y f Hb Hk Hw Hr H) as (_ & _ & _ & _ & _ & _ & _ & Ho & _).
  destruct (C43_measures argpart AP rdist' vsum' vpow' metric' k' hs' bs' nj' rps' hself' X' Y' f' Hb' Hk' Hw' Hr' H') as (_ & _ & _ & _ & _ & _ & _ & Ho' & _).
  assert (Fin : forall v : f64, nle n0 v = true -> nle v n1 = true -> is_finite v = true).
  { intros [s|s| |s m e B] A0 A1; try reflexivity; try discriminate A0. destruct s; discriminate. }
  split.
  - intros B B' Hlt. destruct (Ho ltac:(lia)) as (L0 & L1 & E). destruct (Ho' ltac:(lia)) as (L0' & L1' & E').
    change (sum_nat (map (fun x : nat => nth x (f_occ f) 0) (f_hubs f))) with (hub_slots f) in E.
    change (sum_nat (map (fun x : nat => nth x (f_occ f') 0) (f_hubs f'))) with (hub_slots f') in E'.
    apply nlt_B2R; [now apply Fin|now apply Fin|].
    apply (frac_order (hub_slots f) (in_rows X * k) (hub_slots f') (in_rows X' * k')); try assumption; try nia.
    + apply INR_lt. rewrite !(mult_INR (hub_slots _)). unfold share, share' in Hlt.
      assert (P : (0 < INR (in_rows X * k))%R) by (apply lt_0_INR; nia). assert (P' : (0 < INR (in_rows X' * k'))%R) by (apply lt_0_INR; nia).
      apply (Rmult_lt_compat_r (INR (in_rows X * k) * INR (in_rows X' * k'))) in Hlt; [|now apply Rmult_lt_0_compat].
      replace (INR (hub_slots f) / INR (in_rows X * k) * (INR (in_rows X * k) * INR (in_rows X' * k')))%R with (INR (hub_slots f) * INR (in_rows X' * k'))%R in Hlt by (field; lra).
      replace (INR (hub_slots f') / INR (in_rows X' * k') * (INR (in_rows X * k) * INR (in_rows X' * k')))%R with (INR (hub_slots f') * INR (in_rows X * k))%R in Hlt by (field; lra). exact Hlt.
    + rewrite E. apply occ_pw; try assumption; lia.
    + rewrite E'. apply occ_pw; try assumption; lia.
  - intros B B' En Es. destruct (Ho B) as (L0 & L1 & E). destruct (Ho' B') as (L0' & L1' & E').
    change (sum_nat (map (fun x : nat => nth x (f_occ f) 0) (f_hubs f))) with (hub_slots f) in E.
    change (sum_nat (map (fun x : nat => nth x (f_occ f') 0) (f_hubs f'))) with (hub_slots f') in E'.
    pose proof (Fin _ L0 L1) as F1. pose proof (Fin _ L0' L1') as F2.
    change (neq (f_hub_occ f) (f_hub_occ f')) with (Beqb (f_hub_occ f) (f_hub_occ f')). rewrite Beqb_correct by assumption. apply Req_bool_true.
    rewrite E, E', <- En. f_equal. f_equal. f_equal. unfold share, share' in Es. rewrite <- En, !mult_INR in Es.
    assert (Pk : (0 < INR k)%R) by (apply lt_0_INR; lia). assert (Pk' : (0 < INR k')%R) by (apply lt_0_INR; lia). assert (Pn : (0 < INR (in_rows X))%R) by (apply lt_0_INR; lia).
    replace (INR (hub_slots f) / INR k)%R with (INR (hub_slots f) / (INR (in_rows X) * INR k) * INR (in_rows X))%R by (field; lra).
    rewrite Es. field. lra.
Qed.

(** DEFECT: one object that is among the 3 nearest neighbours of everyone is the only
    hub and holds a third of the slots, but for 6 query objects the reported share is
    smaller than for 7 *)
Definition star (n : nat) : arr2 f64 :=
  Arr2 n (2 * n + 1) (fun i j => if (j =? 0) || (j =? 2 * i + 1) || (j =? 2 * i + 2) then n0 else n1).
Theorem C191_equal_shares_differ : exists f f',
  fit_transform (fun _ _ _ => n0) fsum (fun x _ => x) ref_argpart "precomputed" 3 (nofZ 2) 64 1 None false (InDense (star 6)) None (Ok f) /\
  fit_transform (fun _ _ _ => n0) fsum (fun x _ => x) ref_argpart "precomputed" 3 (nofZ 2) 64 1 None false (InDense (star 7)) None (Ok f') /\
  f_hubs f = [0] /\ f_hubs f' = [0] /\ hub_slots f = 6 /\ hub_slots f' = 7 /\
  nlt (f_hub_occ f) (f_hub_occ f') = true.
Proof.
  pose proof (ft_pre_dense (fun _ _ _ => n0) fsum (fun x _ => x) ref_argpart "precomputed" 3 (nofZ 2 : f64) 64 1 None false (star 6) eq_refl) as H.
  pose proof (ft_pre_dense (fun _ _ _ => n0) fsum (fun x _ => x) ref_argpart "precomputed" 3 (nofZ 2 : f64) 64 1 None false (star 7) eq_refl) as H'.
  cbv zeta in H, H'.
  match type of H with fit_transform _ _ _ _ _ _ _ _ _ _ _ _ _ ?x => set (r := x) in H end.
  match type of H' with fit_transform _ _ _ _ _ _ _ _ _ _ _ _ _ ?x => set (r' := x) in H' end.
  assert (C : match r, r' with Ok f, Ok f' => nat_list_eqb (f_hubs f) [0] && nat_list_eqb (f_hubs f') [0] && (hub_slots f =? 6) && (hub_slots f' =? 7) &&
     nlt (f_hub_occ f) (f_hub_occ f') | _, _ => false end = true) by (vm_compute; reflexivity).
  destruct r as [f|]; [|discriminate]. destruct r' as [f'|]; [|discriminate]. exists f, f'. split; [exact H|]. split; [exact H'|].
  apply andb_prop in C as (C & C5). apply andb_prop in C as (C & C4). apply andb_prop in C as (C & C3). apply andb_prop in C as (C1 & C2).
  unfold nat_list_eqb in C1, C2. destruct list_eq_dec as [E1|]; [|discriminate]. destruct list_eq_dec as [E2|]; [|discriminate].
  apply Nat.eqb_eq in C3, C4. auto.
Qed.

(** the hypotheses of the theorems: a large Gini denominator, and [ex_C43] *)
Example C191_case :
  let Nk := [2 ^ 57; 3; 2 ^ 55]%Z in
  (forall x, In x Nk -> (0 <= x)%Z) /\ (0 < total Nk)%Z /\ (2 ^ 53 < 2 * Z.of_nat (length Nk) * total Nk < 2 ^ 63)%Z /\
  in_wf (InDense ex_D) None /\ 0 < in_rows (InDense ex_D) /\
  exists f, fit_transform (fun _ _ _ => n0) fsum (fun x _ => x) ref_argpart "precomputed" 1 (nofZ 2) 64 1 None true
    (InDense ex_D) None (Ok f) /\ hub_slots f = 2 /\ nle n0 (f_hub_occ f) = true.
Proof.
  split; [cbn; intuition lia|]. split; [cbn; lia|]. split; [cbn; lia|]. split; [cbn; auto|]. split; [cbn; lia|].
  pose proof (ft_pre_dense (fun _ _ _ => n0) fsum (fun x _ => x) ref_argpart "precomputed" 1 (nofZ 2 : f64) 64 1 None true ex_D eq_refl) as H.
  cbv zeta in H. set (r := bind _ _) in H.
  assert (C : match r with Ok f => (hub_slots f =? 2) && nle n0 (f_hub_occ f) | Raise _ => false end = true) by (vm_compute; reflexivity).
  destruct r as [f|]; [|discriminate]. exists f. split; [exact H|]. apply andb_prop in C as (C1 & C2). apply Nat.eqb_eq in C1. auto.
Qed.

Print Assumptions C191_gini_error.
Print Assumptions C191_hub_occurrence_error.
Print Assumptions C191_hub_occurrence_order.
Print Assumptions C191_equal_shares_differ.
