(** Property C111: an analysis reports what the individual functions return. *)
From Coq Require Import String Ascii.
From Coq Require Import ZArith List Arith Lia Bool Permutation.
From Verif Require Import Py Num Arr Sort Conc S_Neighbors M_IO M_Hubness M_SNN M_MPEmpiric M_LS M_Dist M_Centering M_GK M_KNN M_ID M_MPDist M_Analysis P_LS P_Analysis Properties_ID.
Import ListNotations.
Local Open Scope nat_scope.

Section C111.
  Context {V : Type} {N : Num V}.
  Variables (vexp vln : V -> V) (vsum : list V -> V) (vpow : V -> V -> V).
  Variable argpart : list V -> list nat -> list nat.
  Variable part : list V -> list nat -> list V.
  Variables (argsort stable : list V -> list nat) (sort : list V -> list V).
  Variable cpu : nat.
  (** survival and distribution function of the normal distribution, regularised
      incomplete gamma function, order chosen by lexsort *)
  Variables (cdf sf : V -> V -> V -> V) (gammainc : V -> V -> V) (order : arr2 V -> list nat).

  (** the functions of global_scaling.py and intrinsic_dimension.py with their
      default parameters *)
  Let gauss (D : arr2 V) (metric : string) := gaussi vsum cdf sf D metric 0 None None.
  Let gamm (D : arr2 V) (metric : string) := gammai vsum gammainc D metric None.
  Let idim (X : arr2 V) := intrinsic_dimension vsum vln sort (order X) X 6 12 "mackay" "vector" None 5000.
  Let exp_run := exp_run vexp vln vsum vpow argpart part argsort stable sort cpu gauss gamm.
  Let analyze := analyze vexp vln vsum vpow argpart part argsort stable sort cpu gauss gamm idim.
  Implicit Types a : analysis (V:=V).

  Lemma demote_ok {A} (r : result A) v : demote r = Ok v -> r = Ok v.
  Proof. destruct r as [|[]]; cbn; congruence. Qed.

  (** each experiment works on the output of the function its name stands for,
      called with that function's default parameters *)
  Theorem C111_secondary_distances : forall a name hks kks x, exp_run a name hks kks (Ok x) ->
    let D := a_D a in let m := a_metric a in let S := e_sec x in
    (name = "orig"%string -> S = D) /\
    (name = "mp"%string -> mp_empiric_full D m TNone = Ok S) /\
    (name = "mp_gaussi"%string -> gaussi vsum cdf sf D m 0 None None = Ok S) /\
    (name = "mp_gammai"%string -> gammai vsum gammainc D m None = Ok S) /\
    (name = "ls"%string -> local_scaling vexp part D 7 m None cpu 1 (Ok S)) /\
    (name = "nicdm"%string -> nicdm vexp vln vsum part D 7 m None cpu 1 (Ok S)) /\
    (name = "snn"%string -> snn_serial argpart D 10 m = Ok S) /\
    (name = "cent"%string -> exists X Y, a_vectors a = Some X /\ centering vsum X "vector" None = Ok Y /\ S = cosine_distance vsum Y) /\
    (name = "wcent"%string -> exists X Y, a_vectors a = Some X /\ weighted_centering vsum vpow X "cosine" n1 None = Ok Y /\ S = cosine_distance vsum Y) /\
    (name = "lcent"%string -> exists X Q, a_vectors a = Some X /\ localized_centering vsum vpow argpart X None 40 n1 cpu 1 (Ok Q) /\
       nrow S = nrow Q /\ ncol S = ncol Q /\ forall i j, at2 S i j = nsub n1 (at2 Q i j)) /\
    (name = "dsg"%string -> exists X, a_vectors a = Some X /\ dis_sim_global vsum X None = Ok S) /\
    (name = "dsl"%string -> exists X, a_vectors a = Some X /\ dis_sim_local vsum argpart X 10 1 None (Ok S)).
  Proof.
    intros a name hks kks x H D m S.
    destruct (exp_run_parts _ _ _ _ _ _ _ _ _ _ _ _ _ _ _ _ _ H) as (_ & HS & _ & _). fold S in HS.
    remember (Ok S) as r eqn:Er in HS. destruct HS as [r0 Hr|X r0 EX Hr|_ _|_ _]; try discriminate.
    - apply demote_ok in Er. destruct Hr; repeat match goal with |- _ /\ _ => split end; intros E; try discriminate E; first [exact Er|now injection Er as <-|rewrite <- Er; assumption].
    - destruct Hr; repeat match goal with |- _ /\ _ => split end; intros E; try discriminate E; exists X.
      + destruct (centering vsum X "vector" None) as [Y|]; cbn in Er; [|discriminate]. exists Y. repeat split; congruence.
      + destruct (weighted_centering vsum vpow X "cosine" n1 None) as [Y|]; cbn in Er; [|discriminate]. exists Y. repeat split; congruence.
      + destruct r as [Q|]; cbn in Er; [|discriminate]. injection Er as <-. exists Q. repeat split; auto.
      + auto.
      + subst. auto.
  Qed.

  Lemma knn_loop_ok (S : arr2 V) metric y ks d d' : knn_loop argsort S metric y ks d (Ok d') ->
    forall k, (In k ks -> exists v rp sh, dget k d' = Some v /\
                 (forall i l, Permutation (rp i l) l) /\ (forall i j l, Permutation (sh i j l) l) /\
                 calc_knn argsort S metric y k rp sh = Ok v) /\
              (~ In k ks -> dget k d' = dget k d).
  Proof.
    intros H. remember (Ok d') as r eqn:Er. revert d' Er.
    induction H as [d|k0 ks d rp sh e Hp Hq Hc|k0 ks d rp sh v r Hp Hq Hc Hl IH]; intros d' Er k.
    - injection Er as ->. split; [intros []|reflexivity].
    - discriminate.
    - destruct (IH d' Er k) as (I1 & I2). rewrite dget_dset in I2. split.
      + intros Hin. destruct (in_dec Z.eq_dec k ks) as [Hk|Hk]; [now apply I1|].
        destruct Hin as [->|Hin]; [|contradiction]. rewrite Z.eqb_refl in I2.
        exists v, rp, sh. auto.
      + intros Hn. cbn in Hn. rewrite I2 by tauto. destruct (Z.eqb_spec k k0); [subst; exfalso; tauto|reflexivity].
  Qed.

  (** every requested measure is the result of the corresponding function for
      the secondary distances; measures that were not asked for are absent *)
  Theorem C111_measures : forall a name hks kks x, exp_run a name hks kks (Ok x) ->
    let S := e_sec x in let m := a_metric a in
    (forall k, In k hks -> exists h rps, dget k (e_hub x) = Some h /\ (forall i, Permutation (rps i) (seq 0 (ncol S))) /\
       hubness_serial argpart false S k m true rps = Ok (h_out h)) /\
    (forall k, ~ In k hks -> dget k (e_hub x) = None) /\
    (forall y, a_classes a = Some y ->
       (forall k, In k kks -> exists rp sh st, (forall i l, Permutation (rp i l) l) /\ (forall i j l, Permutation (sh i j l) l) /\
          score argsort rp sh S y [k] m None None = Ok st /\
          dget k (e_knn x) = Some (match st with s :: _ => k_acc s | [] => n0 end)) /\
       (forall k, ~ In k kks -> dget k (e_knn x) = None) /\
       exists g, goodman_kruskal_index stable sort S y m = Ok g /\ e_gk x = Some g) /\
    (a_classes a = None -> e_knn x = [] /\ e_gk x = None).
  Proof.
    intros a name hks kks x H S m.
    destruct (exp_run_parts _ _ _ _ _ _ _ _ _ _ _ _ _ _ _ _ _ H) as (_ & _ & HH & HK).
    pose proof (hub_loop_ok _ _ _ _ _ _ _ HH) as HL. split; [|split; [|split]].
    - intros k Hk. destruct (proj1 (HL k) Hk) as (h & rps & Hd & Hp & Hc). exists h, rps. split; [exact Hd|]. split; [exact Hp|].
      unfold calc_hubness in Hc. fold S m in Hc. destruct (hubness_serial argpart false S k m true rps) as [o|]; cbn in Hc; [|discriminate].
      unfold guard in Hc. destruct (length (out_Nk o) =? 0); cbn in Hc; [discriminate|]. injection Hc as <-. reflexivity.
    - intros k Hk. now rewrite (proj2 (HL k) Hk).
    - intros y Hy. rewrite Hy in HK. destruct HK as (HK & Hg). pose proof (knn_loop_ok _ _ _ _ _ _ HK) as KL.
      split; [|split; [|exact Hg]].
      + intros k Hk. destruct (proj1 (KL k) Hk) as (v & rp & sh & Hd & Hp & Hq & Hc). exists rp, sh. unfold calc_knn in Hc. fold S m in Hc.
        destruct (score argsort rp sh S y [k] m None None) as [st|] eqn:Es; cbn in Hc; [|discriminate]. injection Hc as <-.
        exists st. auto.
      + intros k Hk. now rewrite (proj2 (KL k) Hk).
    - intros Hy. now rewrite Hy in HK.
  Qed.

  (** methods that take the matrix never end in TypeError *)
  Theorem C111_matrix_methods_no_type_error : forall a name hks kks,
    In name ["orig"; "mp"; "mp_gaussi"; "mp_gammai"; "ls"; "nicdm"; "snn"]%string ->
    ~ sec_distance vexp vln vsum vpow argpart part cpu gauss gamm a name (Raise TypeError) /\
    (exp_run a name hks kks (Raise TypeError) -> exp_checks a name = Raise TypeError \/
       exists S, sec_distance vexp vln vsum vpow argpart part cpu gauss gamm a name (Ok S)).
  Proof.
    intros a name hks kks Hin.
    assert (HS : ~ sec_distance vexp vln vsum vpow argpart part cpu gauss gamm a name (Raise TypeError)).
    { intros H. remember (Raise TypeError) as r eqn:Er in H. destruct H as [r0 Hr|X r0 EX Hr|_ Hv|_ ->].
      - destruct r0 as [|[]]; cbn in Er; discriminate.
      - destruct Hr; cbn in Hin; intuition discriminate.
      - cbn in Hin, Hv. intuition (subst; discriminate).
      - cbn in Hin. intuition discriminate. }
    split; [exact HS|]. intros H. remember (Raise TypeError) as r eqn:Er in H. destruct H; try discriminate; injection Er as Er; subst;
      [now left|contradiction|right; eauto|right; eauto|right; eauto].
  Qed.

  (** DEFECT: with vectors of at most 12 objects every analysis raises
      ValueError before any experiment, because the intrinsic dimension is
      estimated with k2 = 12 *)
  Theorem C111_few_vectors_never_analysed : forall a exps hks kks a' o X,
    a_vectors a = Some X -> nrow X <= 12 -> analyze a exps hks kks a' o -> a' = a /\ o = Some ValueError.
  Proof.
    intros a exps hks kks a' o X HX Hn H.
    assert (Hi : idim X = Raise ValueError).
    { unfold idim, intrinsic_dimension. cbn [String.eqb Ascii.eqb Bool.eqb orb negb guard bind].
      replace (Z.of_nat (nrow X) <=? 12)%Z with true by (symmetry; apply Z.leb_le; lia). reflexivity. }
    destruct H as [X' e HX' He|xs o Hi' Hr].
    - assert (X' = X) by congruence. subst X'. split; [reflexivity|]. congruence.
    - rewrite HX in Hi'. destruct Hi' as (v & Hv). congruence.
  Qed.
End C111.

(** ** Concrete cases *)
Definition fsum2 (l : list f64) : f64 := fold_left nadd l n0.
Definition exA : analysis := new_analysis (Arr2 3 3 (fun i j => @nofZ f64 _ (nth (i * 3 + j) [0;1;10; 1;0;9; 10;9;0]%Z 0%Z)))
  (Some [1;1;2]%Z) None "distance".

Lemma ok_some {A} (r : result A) : is_ok r = true -> exists v, r = Ok v.
Proof. destruct r; [eauto|discriminate]. Qed.

(** an experiment with one k for hubness and one for classification *)
Example C111_case : exists x, exp_run (fun v => v) (fun v => v) fsum2 (fun v _ => v) ref_argpart (fun l _ => l) ref_argsort ref_argsort ref_sort 4
    (fun D m => gaussi fsum2 (fun v _ _ => v) (fun v _ _ => v) D m 0 None None)
    (fun D m => gammai fsum2 (fun v _ => v) D m None) exA "mp" [1]%Z [1]%Z (Ok x) /\
  map fst (e_hub x) = [1]%Z /\ map fst (e_knn x) = [1]%Z /\ e_gk x <> None.
Proof.
  assert (HP : forall i : nat, Permutation (seq 0 3) (seq 0 3)) by reflexivity.
  assert (HP2 : forall (i : nat) (l : list nat), Permutation l l) by reflexivity.
  assert (HP3 : forall (i j : nat) (l : list nat), Permutation l l) by reflexivity.
  set (Q := mp_full_core "distance" (a_D exA)).
  assert (exists h, calc_hubness ref_argpart 3 Q "distance" 1 (fun _ => seq 0 3) = Ok h) as (h & Eh).
  { apply ok_some. vm_compute. reflexivity. }
  assert (exists v, calc_knn ref_argsort Q "distance" [1;1;2]%Z 1 (fun _ l => l) (fun _ _ l => l) = Ok v) as (v & Ev).
  { apply ok_some. vm_compute. reflexivity. }
  assert (exists g, goodman_kruskal_index ref_argsort ref_sort Q [1;1;2]%Z "distance" = Ok g) as (g & Eg).
  { apply ok_some. vm_compute. reflexivity. }
  exists (Exp "mp" Q [(1%Z, h)] [(1%Z, v)] (Some g)). split.
  - apply er_full with (y := [1;1;2]%Z); [reflexivity| | |reflexivity| |exact Eg].
    + apply (sd_matrix _ _ _ _ _ _ _ _ _ exA "mp" (Ok Q)). change (Ok Q) with (mp_empiric_full (a_D exA) (a_metric exA) TNone). apply mm_mp.
    + eapply hl_step with (rps := fun _ => seq 0 3); [exact HP|exact Eh|apply hl_nil].
    + eapply kl_step with (rp := fun _ l => l) (sh := fun _ _ l => l); [exact HP2|exact HP3|exact Ev|apply kl_nil].
  - cbn [e_hub e_knn e_gk map fst]. repeat split; discriminate.
Qed.

Example C111_few_case : nrow (Arr2 12 3 (fun i j => @nofZ f64 _ (Z.of_nat (i + j)))) <= 12.
Proof. cbn. lia. Qed.

Print Assumptions C111_secondary_distances.
Print Assumptions C111_measures.
Print Assumptions C111_matrix_methods_no_type_error.
Print Assumptions C111_few_vectors_never_analysed.
