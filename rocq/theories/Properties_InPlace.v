(** Properties C145, C146 and C147: the public functions work on arrays in
    memory (Heap.v, M_InPlace.v) without changing the arrays of the caller, and
    what they write in place does not influence what they compute.

    numpy's argpartition, argsort, partition and sort, np.sum, exp, log, the
    distribution functions and the random permutations are any functions. *)
From Coq Require Import String.
From Coq Require Import ZArith List Arith Lia Bool.
From Verif Require Import Py Num NumT NumF32 Arr Sort S_Neighbors M_IO M_Hubness M_GK M_SNN M_KNN M_LS M_MPEmpiric
  M_Approx M_MPDist M_Simhub M_Dist M_Centering M_ID Heap S_Heap S_Session M_InPlace.
From Verif Require Import P_Heap P_InPlace P_InPlace2 P_InPlace3.
Import ListNotations.
Local Open Scope nat_scope.

Section InPlaceProps.
  Context {V : Type} {N : Num V}.
  Variable argpart : list V -> list nat -> list nat.
  Variable argsort : list V -> list nat.
  Variable part : list V -> list nat -> list V.
  Variables (vexp vln : V -> V) (vsum : list V -> V).
  Variables (vcdf vsf : V -> V -> V -> V) (vgam : V -> V -> V).
  Variable sort : list V -> list V.

  (** a call of a public function on one array, with all its other arguments;
      [rps], [rp], [sh] are the random permutations it will draw, [order] is the
      result of np.lexsort *)
  Inductive call :=
  | c_snn (k : Z) (metric : string)
  | c_snn_sample (k : Z) (metric : string) (train : list nat) (test : option (list nat))
  | c_ls (k : Z) (metric : string) (test : option (list nat))
  | c_ls_sample (k : Z) (metric : string) (train : list nat) (test : option (list nat))
  | c_nicdm (k : Z) (metric : string) (test : option (list nat))
  | c_nicdm_sample (k : Z) (metric : string) (train : list nat) (test : option (list nat))
  | c_mp_empiric (metric : string) (test_ind : testind)
  | c_mp_empiric_sample (idx : list nat) (metric : string) (test : option (list nat))
  | c_mp_gaussi (metric : string) (sample_size : Z) (test : option (list Z))
  | c_mp_gaussi_sample (idx : list nat) (metric : string) (test : option (list nat))
  | c_mp_gammai (metric : string) (test : option (list Z))
  | c_simhubIN (train test : option (list nat)) (s : Z) (ret_dist : bool)
  | c_hubness (k : Z) (metric : string) (shuffle_equal : bool) (rps : nat -> list nat)
  | c_score (target ks : list Z) (metric : string) (test sample : option (list nat))
            (rp : nat -> list nat -> list nat) (sh : nat -> nat -> list nat -> list nat)
  | c_intrinsic_dimension (order : list nat) (k1 k2 : Z) (estimator metric : string)
                          (trafo : option string) (mem_threshold : Z).

  (** the results that are no array of floats *)
  Inductive val :=
  | v_hubness (o : hub_out)
  | v_score (o : list (@kst V))
  | v_dimension (d : V).

  Definition p_arr (p : prog V ref) : prog V (answer val) := p_bind p (fun b => p_ret (inl b)).
  Definition p_val {A} (f : A -> val) (p : prog V A) : prog V (answer val) := p_bind p (fun x => p_ret (inr (f x))).
  Definition w_arr (r : result (arr2 V)) : result (wanted V val) := bind r (fun M => Ok (inl M)).
  Definition w_val {A} (f : A -> val) (r : result A) : result (wanted V val) := bind r (fun x => Ok (inr (f x))).

  (** the program of M_InPlace.v that a call runs *)
  Definition run (c : call) (D : ref) : prog V (answer val) :=
    match c with
    | c_snn k metric => p_arr (ip_snn argpart D k metric)
    | c_snn_sample k metric train test => p_arr (ip_snn_sample argsort D k metric train test)
    | c_ls k metric test => p_arr (ip_ls part vexp D k metric test)
    | c_ls_sample k metric train test => p_arr (ip_ls_sample part vexp D k metric train test)
    | c_nicdm k metric test => p_arr (ip_nicdm part vexp vln vsum D k metric test)
    | c_nicdm_sample k metric train test => p_arr (ip_nicdm_sample part vexp vln vsum D k metric train test)
    | c_mp_empiric metric test_ind => p_arr (ip_mp_empiric D metric test_ind)
    | c_mp_empiric_sample idx metric test => p_arr (ip_mp_empiric_sample D idx metric test)
    | c_mp_gaussi metric s test => p_arr (ip_gaussi vsum vcdf vsf D metric s test)
    | c_mp_gaussi_sample idx metric test => p_arr (ip_gaussi_sample vsum vcdf vsf D idx metric test)
    | c_mp_gammai metric test => p_arr (ip_gammai vsum vgam D metric test)
    | c_simhubIN train test s ret_dist => p_arr (ip_simhubIN argsort vln vsum D train test s ret_dist)
    | c_hubness k metric se rps => p_val v_hubness (ip_hubness argpart D k metric se rps)
    | c_score target ks metric test sample rp sh =>
        p_val v_score (ip_score argsort rp sh D target ks metric test sample)
    | c_intrinsic_dimension order k1 k2 est metric trafo mem =>
        p_val v_dimension (ip_id vln vsum sort D order k1 k2 est metric trafo mem)
    end.

  (** what the call returns according to the models of the single modules, in
      which arrays are values and nothing is ever changed *)
  Definition value (c : call) (D : arr2 V) : result (wanted V val) :=
    match c with
    | c_snn k metric => w_arr (snn_serial argpart D k metric)
    | c_snn_sample k metric train test => w_arr (snn_sample argsort D k metric train test)
    | c_ls k metric test => w_arr (local_scaling_serial vexp part D k metric test)
    | c_ls_sample k metric train test => w_arr (local_scaling_sample vexp part D k metric train test)
    | c_nicdm k metric test => w_arr (nicdm_serial vexp vln vsum part D k metric test)
    | c_nicdm_sample k metric train test => w_arr (nicdm_sample vexp vln vsum part D k metric train test)
    | c_mp_empiric metric test_ind => w_arr (mp_empiric_full D metric test_ind)
    | c_mp_empiric_sample idx metric test => w_arr (mp_empiric_sample D idx metric test)
    | c_mp_gaussi metric s test => w_arr (gaussi vsum vcdf vsf D metric s test None)
    | c_mp_gaussi_sample idx metric test => w_arr (gaussi_sample vsum vcdf vsf D idx metric test)
    | c_mp_gammai metric test => w_arr (gammai vsum vgam D metric test)
    | c_simhubIN train test s ret_dist => w_arr (simhubIN_serial argsort vln vsum D train test s ret_dist)
    | c_hubness k metric se rps => w_val v_hubness (hubness_serial argpart false D k metric se rps)
    | c_score target ks metric test sample rp sh =>
        w_val v_score (score argsort rp sh D target ks metric test sample)
    | c_intrinsic_dimension order k1 k2 est metric trafo mem =>
        w_val v_dimension (intrinsic_dimension vsum vln sort order D k1 k2 est metric trafo mem)
    end.

  Hypothesis nan_lt : nlt (nnan (V := V)) n0 = false.
  Hypothesis nan_le : nle (nnan (V := V)) n0 = false.

  Lemma p_arr_run p h r : pure_call p h r ->
    untouched h (snd (p_arr p h)) /\ answers (length h) (snd (p_arr p h)) (fst (p_arr p h)) (w_arr r).
  Proof.
    intros (U & R). unfold p_arr, p_bind, p_ret, w_arr. destruct (p h) as [q h'] eqn:E. simpl in *. destruct r as [M|e].
    - destruct R as (b & M' & -> & L & G & Q). simpl. split; [exact U|]. split; [exact L|]. eauto.
    - subst q. simpl. split; [exact U|reflexivity].
  Qed.
  Lemma p_val_run {A} (f : A -> val) p h r : pure_value p h r ->
    untouched h (snd (p_val f p h)) /\ answers (length h) (snd (p_val f p h)) (fst (p_val f p h)) (w_val f r).
  Proof.
    intros (R & U). unfold p_val, p_bind, p_ret, w_val. destruct (p h) as [q h'] eqn:E. simpl in *. subst q.
    destruct r; simpl; split; auto.
  Qed.

  (** C145: whatever arrays exist and whichever of them is passed, a call
      changes none of them, whether it returns or raises; what it returns is
      the value (a new array, if it is an array) that the model of the single
      function gives for the contents of the argument. *)
  Theorem C145_no_call_changes_an_array_of_the_caller c h a D :
    nth_error h a = Some D ->
    untouched h (snd (run c a h)) /\
    answers (length h) (snd (run c a h)) (fst (run c a h)) (value c D).
  Proof.
    intros E. destruct c; cbn [run value].
    - apply p_arr_run. now apply ip_snn_pure.
    - apply p_arr_run. now apply (ip_snn_sample_pure argsort k metric train test).
    - apply p_arr_run. now apply (ip_ls_pure part vexp k metric test).
    - apply p_arr_run. now apply (ip_ls_sample_pure part vexp k metric train test).
    - apply p_arr_run. now apply (ip_nicdm_pure part vexp vln vsum k metric test).
    - apply p_arr_run. now apply (ip_nicdm_sample_pure part vexp vln vsum k metric train test).
    - apply p_arr_run. now apply (ip_mp_empiric_pure metric test_ind).
    - apply p_arr_run. now apply (ip_mp_empiric_sample_pure idx metric test).
    - apply p_arr_run. now apply (ip_gaussi_pure vsum vcdf vsf metric sample_size test).
    - apply p_arr_run. now apply (ip_gaussi_sample_pure vsum vcdf vsf idx metric test).
    - apply p_arr_run. now apply (ip_gammai_pure vsum vgam nan_lt nan_le metric test).
    - apply p_arr_run. now apply (ip_simhubIN_pure argsort vln vsum train test s ret_dist).
    - apply p_val_run. now apply ip_hubness_pure.
    - apply p_val_run. now apply ip_score_pure.
    - apply p_val_run. now apply ip_id_pure.
  Qed.

  (** C146: dis_sim_local subtracts centroids from its own copies of the
      vectors and reuses the array of distances under other names; it changes
      neither [X] nor [Y] (which may be the same array) and returns, in a new
      array, a result of the model without memory. *)
  Theorem C146_dis_sim_local_changes_no_vectors h x X (y : option ref) (Y : option (arr2 V)) k n_jobs :
    nth_error h x = Some X ->
    match y, Y with None, None => True | Some y, Some Y => nth_error h y = Some Y | _, _ => False end ->
    (n_jobs <= 1)%Z ->
    exists r, dis_sim_local vsum argpart X k n_jobs Y r /\ pure_call (ip_dsl argpart vsum x y k) h r.
  Proof. apply ip_dsl_pure. Qed.

  Lemma untouched_trans (h h' h'' : heap V) : length h <= length h' -> untouched h h' -> untouched h' h'' -> untouched h h''.
  Proof. intros L A B a Ha. rewrite B by lia. now apply A. Qed.
  Lemma untouched_len (h h' : heap V) : untouched h h' -> length h <= length h'.
  Proof.
    intros U. destruct (le_lt_dec (length h) (length h')) as [L|L]; [exact L|]. exfalso.
    specialize (U (length h') L). assert (nth_error h' (length h') = None) as Hn by (apply nth_error_None; lia).
    rewrite Hn in U. symmetry in U. apply nth_error_None in U. lia.
  Qed.
  Lemma answers_later {U} n (h h' : heap V) r (w : result (wanted V U)) :
    untouched h h' -> answers n h r w -> answers n h' r w.
  Proof.
    unfold answers. intros T. destruct r as [[b|x]|e], w as [[M|y]|e']; auto.
    intros (L & M' & G & Q). split; [exact L|]. exists M'. split; [|exact Q].
    rewrite T; [exact G|]. apply nth_error_Some. congruence.
  Qed.
  Lemma answers_le {U} m n (h : heap V) r (w : result (wanted V U)) : m <= n -> answers n h r w -> answers m h r w.
  Proof.
    unfold answers. intros T. destruct r as [[b|x]|e], w as [[M|y]|e']; auto.
    intros (L & R). split; [lia|exact R].
  Qed.
  Lemma answers_arrays {U} n (h : heap V) r (w : result (wanted V U)) :
    answers n h r w -> forall b, In b (answer_arrays [r]) -> n <= b < length h.
  Proof.
    unfold answers, answer_arrays. destruct r as [[b|x]|e], w as [[M|y]|e']; simpl; try tauto; intros H c Hc; try tauto.
    destruct Hc as [<-|[]]. destruct H as (L & M' & G & _). split; [exact L|]. apply nth_error_Some. congruence.
  Qed.

  Lemma Forall2_weaken {A B} (P Q : A -> B -> Prop) la lb :
    (forall a b, P a b -> Q a b) -> Forall2 P la lb -> Forall2 Q la lb.
  Proof. intros I. induction 1; constructor; auto. Qed.

  (** the calls one after the other, each on one of the caller's arrays; the
      caller catches the exceptions *)
  Definition session (l : list (call * ref)) : prog V (list (result (answer val))) :=
    p_map l (fun ca => p_try (run (fst ca) (snd ca))).

  (** C147: in a sequence of calls every call gives what it would give alone on
      the original arrays, no call changes the result of an earlier one, and no
      two results share memory. *)
  Theorem C147_calls_do_not_influence_each_other l h :
    (forall c a, In (c, a) l -> a < length h) ->
    exists rs, fst (session l h) = Ok rs /\
      untouched h (snd (session l h)) /\
      Forall2 (fun ca r => exists D, nth_error h (snd ca) = Some D /\
        answers (length h) (snd (session l h)) r (value (fst ca) D)) l rs /\
      NoDup (answer_arrays rs).
  Proof.
    intros In0.
    assert (G : forall l hc, untouched h hc -> (forall c a, In (c, a) l -> a < length h) ->
      exists rs, fst (session l hc) = Ok rs /\ untouched hc (snd (session l hc)) /\
        Forall2 (fun ca r => exists D, nth_error h (snd ca) = Some D /\
          answers (length hc) (snd (session l hc)) r (value (fst ca) D)) l rs /\
        NoDup (answer_arrays rs) /\ (forall b, In b (answer_arrays rs) -> length hc <= b)).
    { clear l In0. induction l as [|[c a] l IH]; intros hc U Il.
      - exists []. simpl. split; [reflexivity|]. split; [intros ? ?; reflexivity|].
        split; [constructor|]. split; [constructor|intros b []].
      - pose proof (Il c a (or_introl eq_refl)) as La.
        destruct (nth_error h a) as [D|] eqn:ED; [|apply nth_error_None in ED; lia].
        assert (EC : nth_error hc a = Some D) by (rewrite U by exact La; exact ED).
        destruct (C145_no_call_changes_an_array_of_the_caller c hc a D EC) as (U1 & A1).
        pose proof (untouched_len _ _ U1) as L1. pose proof (untouched_len _ _ U) as L0.
        destruct (IH (snd (run c a hc)) (untouched_trans _ _ _ L0 U U1) (fun c a H => Il c a (or_intror H)))
          as (rs & R & U2 & F & ND & Lo).
        assert (ER : session ((c, a) :: l) hc = (Ok (fst (run c a hc) :: rs), snd (session l (snd (run c a hc))))).
        { unfold session. cbn [p_map fst snd]. unfold p_bind at 1, p_try at 1. fold (session l).
          unfold p_bind. destruct (session l (snd (run c a hc))) as [q h2] eqn:E2. simpl in R. subst q. reflexivity. }
        rewrite ER. exists (fst (run c a hc) :: rs). cbn [fst snd].
        assert (U3 : untouched hc (snd (session l (snd (run c a hc))))) by (eapply untouched_trans; eauto).
        split; [reflexivity|]. split; [exact U3|]. split; [|split].
        + constructor.
          * exists D. split; [exact ED|]. eapply answers_later; [exact U2|exact A1].
          * eapply Forall2_weaken; [|exact F]. intros [c' a'] r (D' & E' & A'). exists D'. split; [exact E'|].
            eapply answers_le; [|exact A']. exact L1.
        + change (fst (run c a hc) :: rs) with ([fst (run c a hc)] ++ rs). unfold answer_arrays. rewrite flat_map_app.
          pose proof (answers_arrays _ _ _ _ A1) as B. unfold answer_arrays in B.
          destruct (fst (run c a hc)) as [[b|x]|e]; simpl in *; auto. constructor; [|exact ND].
          intros Hb. specialize (Lo b Hb). specialize (B b (or_introl eq_refl)). lia.
        + intros b. change (fst (run c a hc) :: rs) with ([fst (run c a hc)] ++ rs). unfold answer_arrays.
          rewrite flat_map_app, in_app_iff. intros [Hb|Hb].
          * apply (answers_arrays _ _ _ _ A1) in Hb. lia.
          * apply Lo in Hb. lia. }
    destruct (G l h (fun a _ => eq_refl) In0) as (rs & R & U & F & ND & _). exists rs. auto.
  Qed.
End InPlaceProps.

(** four points on a line, among other arrays; np.sum from left to right *)
Definition ip_line : arr2 f64 := Arr2 4 4 (fun i j => nofZ (Z.abs (nth i [0; 1; 3; 7] 0 - nth j [0; 1; 3; 7] 0))%Z).
Definition ip_heap : heap f64 := [Arr2 1 1 (fun _ _ => nnan); ip_line; Arr2 2 3 (fun i j => nofZ (Z.of_nat (i + j)))].
Definition ip_sum (l : list f64) : f64 := fold_left nadd l n0.
Definition ip_calls : list (call * ref) :=
  [(c_mp_gammai "distance" None, 1); (c_hubness 2 "distance" false (fun _ => []), 1);
   (c_snn 2 "distance", 1); (c_ls 1 "euclid" None, 1); (c_snn 1 "distance", 2);
   (c_mp_empiric "distance" TNone, 1); (c_snn 2 "distance", 1)].
Definition ip_session := session ref_argpart ref_argsort ref_part (fun x : f64 => x) (fun x => x) ip_sum
  (fun x _ _ => x) (fun x _ _ => x) (fun _ x => x) (fun l => l) ip_calls ip_heap.

(** the condition on NaN holds for float64, float32 and the exact model; the
    calls meet the hypotheses; the arrays 0, 1, 2 exist before, the results are
    new arrays, an unknown metric and a matrix that is not square are refused *)
Example C145_C147_case :
  (nlt (nnan (V:=f64)) n0 = false /\ nle (nnan (V:=f64)) n0 = false) /\
  (nlt (nnan (V:=xr)) n0 = false /\ nle (nnan (V:=xr)) n0 = false) /\
  (nlt (nnan (V:=f32)) n0 = false /\ nle (nnan (V:=f32)) n0 = false) /\
  nth_error ip_heap 1 = Some ip_line /\
  (forall c a, In (c, a) ip_calls -> a < length ip_heap) /\
  match fst ip_session with
  | Ok rs => map (fun r => match r with Ok (inl b) => 1%Z | Ok (inr _) => 2%Z | Raise _ => 0%Z end) rs = [1; 2; 1; 0; 0; 1; 1]%Z /\
             length (answer_arrays rs) = 4
  | Raise _ => False
  end.
Proof.
  split; [split; reflexivity|]. split; [split; reflexivity|]. split; [split; reflexivity|].
  split; [reflexivity|]. split.
  - intros c a H. simpl in H. repeat (destruct H as [H|H]; [injection H as _ <-; simpl; lia|]). destruct H.
  - vm_compute. split; reflexivity.
Qed.

(** three vectors, compared with themselves under another name and with others *)
Example C146_case : let X := Arr2 3 2 (fun i j => nofZ (V:=f64) (Z.of_nat (i * i + j))) in
  let h := [X; Arr2 2 2 (fun i j => nofZ (Z.of_nat (i + j)))] in
  nth_error h 0 = Some X /\
  map (fun y => is_ok (fst (ip_dsl ref_argpart ip_sum 0 y 1 h))) [None; Some 0; Some 1] = [true; true; true].
Proof. split; [reflexivity|]. vm_compute. reflexivity. Qed.

Print Assumptions C145_no_call_changes_an_array_of_the_caller.
Print Assumptions C146_dis_sim_local_changes_no_vectors.
Print Assumptions C147_calls_do_not_influence_each_other.
