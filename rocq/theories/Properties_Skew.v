(** Properties C129-C131: the hubness value S_k, its truncated normal variant, and
    renaming the objects. *)
From Coq Require Import String.
From Coq Require Import ZArith List Arith Lia Bool Permutation Reals Lra.
From Verif Require Import Py Num NumT Arr Sort Conc S_Neighbors S_Relabel S_Skew M_IO M_Hubness M_HubnessClass M_Skew.
From Verif Require Import P_Neighbors P_Hubness P_HubnessMain P_Skew P_Skew2 P_Relabel Properties_Hubness.
Import ListNotations.
Local Open Scope nat_scope.

(* ------------------------------------------------------------------ *)
(** ** C129 (1): hubness of m objects lies between -(m-2)/sqrt(m-1) and
    (m-2)/sqrt(m-1); in particular it is 0 for two objects. *)
Theorem C129_hubness_bounded :
  forall (argpart : list f64 -> list nat -> list nat), argpart_ok argpart ->
  forall sparse (D : arr2 f64) (k : nat) metric se rps,
    (forall i, i < nrow D -> Permutation (rps i) (seq 0 (ncol D))) ->
  forall o,
    hubness_serial argpart sparse D (Z.of_nat k) metric se rps = Ok o \/
    hubness_parallel argpart sparse D (Z.of_nat k) metric se rps false (Ok o) ->
    2 <= ncol D -> (Rabs (hub_Sk o) <= (INR (ncol D) - 2) / sqrt (INR (ncol D) - 1))%R.
Proof.
  intros argpart AP sparse D k metric se rps Hrp o H H2.
  destruct (C01_occurrences_conserved argpart AP sparse D k metric se rps Hrp o H) as (L & _).
  pose proof (skew_bound (map INR (out_Nk o))) as B. rewrite map_length, L in B. exact (B H2).
Qed.

(** ** C129 (2): the bound is attained whenever one object occurs more often than
    the others, which all occur equally often. *)
Theorem C129_bound_attained :
  forall (o : hub_out) (c d m : nat), d < c -> 1 <= m -> Permutation (out_Nk o) (c :: repeat d m) ->
    hub_Sk o = ((INR (m + 1) - 2) / sqrt (INR (m + 1) - 1))%R.
Proof.
  intros o c d m Hcd Hm HP. unfold hub_Sk. rewrite (skew_perm _ _ (Permutation_map INR HP)).
  assert (E : map INR (c :: repeat d m) = map (fun x => x + INR d)%R ((INR c - INR d)%R :: repeat 0%R m)).
  { cbn [map]. f_equal; [ring|]. clear. induction m; [reflexivity|]. cbn [repeat map]. rewrite IHm. f_equal. ring. }
  rewrite E, skew_shift. clear E. set (e := (INR c - INR d)%R). assert (He : (0 < e)%R) by (unfold e; apply lt_INR in Hcd; lra).
  clearbody e. clear HP o. rewrite plus_INR. cbn [INR]. set (r := INR m). assert (Hr : (1 <= r)%R) by (apply (le_INR 1); exact Hm).
  assert (S0 : forall f n, sumR (map f (repeat 0%R n)) = (INR n * f 0)%R).
  { intros f n. induction n; [cbn; ring|]. rewrite S_INR. cbn [repeat map]. change (sumR (?a :: ?b)) with (a + sumR b)%R.
    change (sumR (f 0%R :: map f (repeat 0%R n))) with (f 0%R + sumR (map f (repeat 0%R n)))%R. rewrite IHn. ring. }
  assert (Ln : length (e :: repeat 0%R m) = Datatypes.S m) by (cbn; now rewrite repeat_length).
  assert (M : meanR (e :: repeat 0%R m) = (e / (r + 1))%R).
  { unfold meanR. rewrite Ln, S_INR. fold r. f_equal. change (sumR (e :: repeat 0%R m)) with (e + sumR (repeat 0%R m))%R.
    rewrite <- sumR_id, S0. ring. }
  assert (C : forall p, cmoment p (e :: repeat 0%R m) = (((e - e / (r + 1)) ^ p + r * (0 - e / (r + 1)) ^ p) / (r + 1))%R).
  { intros p. unfold cmoment. rewrite M. unfold meanR. rewrite map_length, Ln, S_INR. fold r. f_equal. cbn [map].
    change (sumR (?a :: ?b)) with (a + sumR b)%R.
    change (sumR ((e - e / (r + 1)) ^ p :: map (fun x => (x - e / (r + 1)) ^ p) (repeat 0 m)))%R
      with ((e - e / (r + 1)) ^ p + sumR (map (fun x => (x - e / (r + 1)) ^ p) (repeat 0 m)))%R.
    rewrite S0. reflexivity. }
  unfold skewR. rewrite !C.
  replace (((e - e / (r + 1)) ^ 2 + r * (0 - e / (r + 1)) ^ 2) / (r + 1))%R with (e * e * r / ((r + 1) * (r + 1)))%R by (field; lra).
  replace (((e - e / (r + 1)) ^ 3 + r * (0 - e / (r + 1)) ^ 3) / (r + 1))%R with (e * e * e * (r * (r - 1)) / ((r + 1) * (r + 1) * (r + 1)))%R by (field; lra).
  assert (Sq : sqrt (e * e * r / ((r + 1) * (r + 1))) = (e * sqrt r / (r + 1))%R).
  { rewrite sqrt_div; [|nra|nra]. rewrite sqrt_mult by nra. rewrite !sqrt_square by lra. reflexivity. }
  rewrite Sq. replace (r + 1 - 1)%R with r by ring. replace (r + 1 - 2)%R with (r - 1)%R by ring.
  assert (Hs : (0 < sqrt r)%R) by (apply sqrt_lt_R0; lra).
  destruct (Req_EM_T (e * e * r / ((r + 1) * (r + 1))) 0) as [Z0|_].
  - exfalso. assert (0 < e * e * r / ((r + 1) * (r + 1)))%R by (apply Rdiv_lt_0_compat; [apply Rmult_lt_0_compat; nra|nra]). lra.
  - field. repeat split; lra.
Qed.

(** ** C129 (3): if the neighbourhoods comprise all other objects, hubness is 0. *)
Theorem C129_complete_neighbourhoods :
  forall (argpart : list f64 -> list nat -> list nat), argpart_ok argpart ->
  forall sparse (D : arr2 f64) (k : nat) metric se rps o,
    nrow D = ncol D ->
    (forall i, i < nrow D -> Permutation (rps i) (seq 0 (ncol D))) ->
    (forall i j, i < nrow D -> j < ncol D -> i <> j -> nisfin (at2 D i j) = true) ->
    ncol D - 1 <= k ->
    hubness_serial argpart sparse D (Z.of_nat k) metric se rps = Ok o ->
    (forall j, j < ncol D -> nth j (out_Nk o) 0 = ncol D - 1) /\ hub_Sk o = 0%R.
Proof.
  intros argpart AP sparse D k metric se rps o Hsq Hrp Hfin Hk H.
  destruct (C01_occurrences_conserved argpart AP sparse D k metric se rps Hrp o (or_introl H)) as (L & _ & _ & C).
  destruct (hubness_serial_inv argpart sparse D _ metric se rps o H) as (V1 & K1 & _ & _).
  assert (M1 : 0 < ncol D). { destruct (ncol D); [pose proof (hub_k_0 (Z.of_nat k)); lia|lia]. }
  destruct (serial_knn f64_cmp argpart AP sparse D k metric se rps) as (o' & E & LD & _ & G); auto.
  rewrite E in H. injection H as ->.
  assert (A : forall j, j < ncol D -> nth j (out_Nk o) 0 = ncol D - 1).
  { intros j Hj. rewrite C by exact Hj. rewrite (rows_count _ _ (nrow D)) by exact LD.
    rewrite (count_if_ext _ (fun i => negb (i =? j))).
    - pose proof (count_if_or_and (fun i => negb (i =? j)) (fun i => i =? j) (nrow D)) as Q.
      rewrite count_if_eq1 in Q by lia.
      rewrite (count_if_ext (fun z => negb (z =? j) && (z =? j)) (fun _ => false)), count_if_false in Q by (intros i _; destruct (i =? j); reflexivity).
      rewrite (count_if_ext (fun z => negb (z =? j) || (z =? j)) (fun _ => true)) in Q by (intros i _; destruct (i =? j); reflexivity).
      assert (T : count_if (fun _ => true) (nrow D) = nrow D).
      { unfold count_if. rewrite <- (seq_length (nrow D) 0) at 2. f_equal. generalize (seq 0 (nrow D)). induction l; cbn; congruence. }
      lia.
    - intros i Hi. specialize (G i Hi).
      destruct (C03_never_own_neighbour argpart AP sparse D k metric se rps o i Hsq Hrp Hi E) as (NS & _).
      assert (Cnt : count_if (fun j => nisfin (at2 D i j) && negb (j =? i)) (ncol D) = ncol D - 1).
      { rewrite (count_if_ext _ (fun x => negb (x =? i))).
        - pose proof (count_if_or_and (fun x => negb (x =? i)) (fun x => x =? i) (ncol D)) as Q.
          rewrite count_if_eq1 in Q by lia.
          rewrite (count_if_ext (fun z => negb (z =? i) && (z =? i)) (fun _ => false)), count_if_false in Q by (intros x _; destruct (x =? i); reflexivity).
          rewrite (count_if_ext (fun z => negb (z =? i) || (z =? i)) (fun _ => true)) in Q by (intros x _; destruct (x =? i); reflexivity).
          assert (T : count_if (fun _ => true) (ncol D) = ncol D).
          { unfold count_if. rewrite <- (seq_length (ncol D) 0) at 2. f_equal. generalize (seq 0 (ncol D)). induction l; cbn; congruence. }
          lia.
        - intros x Hx. destruct (Nat.eqb_spec x i) as [|Hne]; [apply andb_false_r|]. rewrite Hfin by auto. reflexivity. }
      destruct NS as (NS & _); [rewrite Cnt; lia|].
      destruct (Nat.eqb_spec i j) as [->|Hne]; cbn [negb].
      + destruct (existsb (Nat.eqb j) (nth j (out_Dk o) [])) eqn:X; [|reflexivity].
        apply existsb_exists in X as (x & Hx & Ex). apply Nat.eqb_eq in Ex. subst. contradiction.
      + apply existsb_exists. exists j. split; [|apply Nat.eqb_refl].
        destruct (in_dec Nat.eq_dec j (nth i (out_Dk o) [])) as [|Hn]; [assumption|]. exfalso.
        pose proof (knn_len _ _ _ _ G) as Ln. rewrite Nat.min_r in Ln by lia.
        assert (Le : length (i :: j :: nth i (out_Dk o) []) <= length (seq 0 (ncol D))).
        { apply NoDup_incl_length.
          - constructor; [intros [X|X]; [congruence|contradiction]|]. constructor; [exact Hn|apply G].
          - intros x [<- | [<- | Hx]]; apply in_seq; [lia|lia|]. pose proof (knn_range _ _ _ _ G x Hx). lia. }
        rewrite seq_length in Le. cbn [length] in Le. lia. }
  split; [exact A|].
  assert (Er : out_Nk o = repeat (ncol D - 1) (ncol D)).
  { apply (nth_ext _ _ 0 0); [now rewrite repeat_length|]. intros i Hi. rewrite L in Hi. rewrite A by exact Hi.
    symmetry. apply (repeat_spec (ncol D)). apply nth_In. now rewrite repeat_length. }
  unfold hub_Sk. rewrite Er.
  replace (map INR (repeat (ncol D - 1) (ncol D))) with (repeat (INR (ncol D - 1)) (ncol D)); [apply skew_const|].
  generalize (ncol D) at 2 4. induction n; [reflexivity|]. cbn. now rewrite IHn.
Qed.

(* ------------------------------------------------------------------ *)
(** ** C130, DEFECT: k_skewness_truncnorm_ sees only the mean and the spread of the
    occurrences: reflecting the histogram at its mean, which turns hubs into
    antihubs and changes the sign of the skewness, does not change it, however
    scipy computes the moment; and it is positive for every histogram with a
    spread, also if its skewness is negative.  Exact arithmetic. *)
Theorem C130_truncnorm_blind_to_direction :
  forall (moment3 : xr -> xr -> xr) (Nk : list Z) (c : Z),
    2 <= length Nk -> (sumZ Nk = c * Z.of_nat (length Nk))%Z ->
    let reflected := map (fun x => 2 * c - x)%Z Nk in
    skewness_truncnorm xsum moment3 reflected = skewness_truncnorm xsum moment3 Nk /\
    skewR (map IZR reflected) = (- skewR (map IZR Nk))%R.
Proof.
  intros moment3 Nk c Hl Hc reflected.
  assert (Hne : Nk <> []) by (intros ->; cbn in Hl; lia).
  assert (Hne' : reflected <> []) by (unfold reflected; destruct Nk; [congruence|discriminate]).
  assert (ER : map IZR reflected = map (fun x => x + IZR (2 * c))%R (map Ropp (map IZR Nk))).
  { unfold reflected. rewrite !map_map. apply map_ext. intros x. rewrite minus_IZR. ring. }
  assert (Pn : (0 < INR (length Nk))%R) by (apply lt_0_INR; lia).
  assert (Mn : meanR (map IZR Nk) = IZR c).
  { unfold meanR. rewrite <- sumZ_IZR, Hc, mult_IZR, map_length, INR_IZR_INZ. field. rewrite <- INR_IZR_INZ. lra. }
  assert (Mr : meanR (map IZR reflected) = IZR c).
  { rewrite ER, meanR_shift by (destruct Nk; [congruence|discriminate]). rewrite meanR_opp, Mn, mult_IZR. ring. }
  split.
  - unfold skewness_truncnorm. rewrite !zmean_xr, Mn, Mr by assumption.
    rewrite !zstd1_xr by (unfold reflected; rewrite ?map_length; exact Hl).
    replace (stdR (map IZR reflected)) with (stdR (map IZR Nk)); [reflexivity|].
    unfold stdR. rewrite Mn, Mr. unfold reflected. rewrite !map_length. do 3 f_equal. rewrite !map_map. apply map_ext.
    intros x. rewrite minus_IZR, mult_IZR. ring.
  - rewrite ER, skew_shift, skew_opp. reflexivity.
Qed.
Theorem C130_truncnorm_always_positive :
  forall (moment3 : xr -> xr -> xr) (Nk : list Z),
    (forall a b, moment3 (XFin a) (XFin b) = XFin (truncated_third_moment a b)) ->
    (exists x y, In x Nk /\ In y Nk /\ x <> y) ->
    (forall x, In x Nk -> 0 <= x < 2 ^ 62)%Z ->
    exists r, skewness_truncnorm xsum moment3 Nk = XFin r /\ (0 < r)%R.
Proof.
  intros moment3 Nk Hm (x & y & Hx & Hy & Hxy) Hr.
  assert (Hne : Nk <> []) by (intros ->; destruct Hx).
  assert (Hl : 2 <= length Nk). { destruct Nk as [|a [|b l]]; [congruence| |cbn; lia]. destruct Hx as [<-|[]], Hy as [<-|[]]. congruence. }
  assert (Pn : (0 < INR (length Nk))%R) by (apply lt_0_INR; lia).
  unfold skewness_truncnorm. rewrite zmean_xr, zstd1_xr by assumption.
  set (l := map IZR Nk). assert (Ll : length l = length Nk) by apply map_length.
  assert (Mb : (0 <= meanR l < IZR (2 ^ 62))%R).
  { assert (B : forall q, (forall x, In x q -> 0 <= x < 2 ^ 62)%Z -> q <> [] -> (0 <= sumR (map IZR q) < INR (length q) * IZR (2 ^ 62))%R).
    { induction q as [|z q IH]; intros Hq Hqn; [congruence|]. cbn [map length]. rewrite S_INR. change (sumR (?a :: ?b)) with (a + sumR b)%R.
      change (sumR (IZR z :: map IZR q)) with (IZR z + sumR (map IZR q))%R.
      destruct (Hq z (or_introl eq_refl)) as (Z1 & Z2). apply IZR_le in Z1. apply IZR_lt in Z2.
      destruct q as [|z' q]; [cbn; lra|]. destruct (IH (fun x Hx => Hq x (or_intror Hx)) ltac:(discriminate)). lra. }
    destruct (B Nk Hr Hne) as (B1 & B2). unfold meanR. fold l in B1, B2. rewrite Ll. split.
    - apply Rmult_le_pos; [exact B1|]. left. now apply Rinv_0_lt_compat.
    - apply (Rmult_lt_reg_r (INR (length Nk))); [exact Pn|]. unfold Rdiv. rewrite Rmult_assoc, Rinv_l by lra. lra. }
  assert (Sp : (0 < stdR l)%R).
  { unfold stdR. apply sqrt_lt_R0. apply Rdiv_lt_0_compat.
    - destruct (Rle_lt_or_eq_dec 0 (sumR (map (fun x => (x - meanR l) * (x - meanR l))%R l))) as [|Z0]; [|assumption|].
      { apply sumR_nonneg. intros z _. exact (Rle_0_sqr (z - meanR l)). }
      exfalso. assert (Q : forall z, In z l -> z = meanR l).
      { intros z Hz. pose proof (sumR_in_le (fun x => (x - meanR l) * (x - meanR l))%R l z) as Q. cbv beta in Q. rewrite <- Z0 in Q.
        specialize (Q (fun w _ => Rle_0_sqr (w - meanR l)) Hz). pose proof (Rle_0_sqr (z - meanR l)) as Q2. unfold Rsqr in Q2.
        assert (Q3 : ((z - meanR l) * (z - meanR l) = 0)%R) by lra. apply Rmult_integral in Q3. lra. }
      apply Hxy. apply eq_IZR. rewrite (Q (IZR x)), (Q (IZR y)) by (apply in_map; assumption). reflexivity.
    - rewrite Ll. apply (le_INR 2) in Hl. cbn in Hl. lra. }
  change (n0 (V:=xr)) with (XFin 0). change (nofZ (2 ^ 63 - 1)) with (XFin (IZR (2 ^ 63 - 1))).
  change (nsub (XFin 0) (XFin (meanR l))) with (XFin (0 - meanR l)). change (nsub (XFin (IZR (2 ^ 63 - 1))) (XFin (meanR l))) with (XFin (IZR (2 ^ 63 - 1) - meanR l)).
  assert (Dv : forall u, ndiv (XFin u) (XFin (stdR l)) = XFin (u / stdR l)).
  { intros u. cbn. destruct (Req_EM_T (stdR l) 0); [lra|reflexivity]. }
  rewrite !Dv, Hm. eexists. split; [reflexivity|].
  assert (Big : (IZR (2 ^ 62) + IZR (2 ^ 62) - 1 = IZR (2 ^ 63 - 1))%R) by (rewrite <- plus_IZR, <- minus_IZR; reflexivity).
  assert (Hm' : (meanR l <= IZR (2 ^ 62) - 1)%R \/ (IZR (2 ^ 62) - 1 < meanR l)%R) by lra.
  assert (Mq : (meanR l * 2 < IZR (2 ^ 63 - 1))%R).
  { (* the mean of integers below 2^62 is at most 2^62 - 1 *)
    assert (B : forall q, (forall x, In x q -> 0 <= x < 2 ^ 62)%Z -> (sumR (map IZR q) <= INR (length q) * IZR (2 ^ 62 - 1))%R).
    { induction q as [|z q IH]; intros Hq; [cbn; lra|]. cbn [map length]. rewrite S_INR.
      change (sumR (IZR z :: map IZR q)) with (IZR z + sumR (map IZR q))%R.
      destruct (Hq z (or_introl eq_refl)) as (_ & Z2). assert (Z3 : (IZR z <= IZR (2 ^ 62 - 1))%R) by (apply IZR_le; lia).
      specialize (IH (fun x Hx => Hq x (or_intror Hx))). lra. }
    specialize (B Nk Hr). fold l in B. assert (M2 : (meanR l <= IZR (2 ^ 62 - 1))%R).
    { unfold meanR. rewrite Ll. apply (Rmult_le_reg_r (INR (length Nk))); [exact Pn|]. unfold Rdiv. rewrite Rmult_assoc, Rinv_l by lra. lra. }
    rewrite minus_IZR in M2. lra. }
  apply third_pos.
  - apply Rmult_lt_compat_r; [now apply Rinv_0_lt_compat|]. lra.
  - unfold Rdiv. set (i := (/ stdR l)%R). assert (Hi : (0 < i)%R) by (apply Rinv_0_lt_compat; exact Sp).
    replace ((0 - meanR l) * i * ((0 - meanR l) * i))%R with ((i * i) * (meanR l * meanR l))%R by ring.
    replace ((IZR (2 ^ 63 - 1) - meanR l) * i * ((IZR (2 ^ 63 - 1) - meanR l) * i))%R with ((i * i) * ((IZR (2 ^ 63 - 1) - meanR l) * (IZR (2 ^ 63 - 1) - meanR l)))%R by ring.
    apply Rmult_lt_compat_l; [nra|]. set (B := IZR (2 ^ 63 - 1)) in *. nra.
Qed.

(** the histograms of one hub and of one antihub, both of mean 3 *)
Example C130_case :
  2 <= length [2; 2; 2; 6]%Z /\ (sumZ [2; 2; 2; 6] = 3 * 4)%Z /\ map (fun x => 2 * 3 - x)%Z [2; 2; 2; 6]%Z = [4; 4; 4; 0]%Z /\
  (0 < skewR (map IZR [2; 2; 2; 6]%Z))%R /\ (skewR (map IZR [4; 4; 4; 0]%Z) < 0)%R /\
  (forall x, In x [4; 4; 4; 0]%Z -> 0 <= x < 2 ^ 62)%Z /\ (exists x y, In x [4; 4; 4; 0]%Z /\ In y [4; 4; 4; 0]%Z /\ x <> y).
Proof.
  assert (P : (0 < skewR (map IZR [2; 2; 2; 6]%Z))%R).
  { assert (HP : Permutation (out_Nk (HubOut [] [2; 2; 2; 6])) (6 :: repeat 2 3)).
    { cbn. transitivity (6 :: [2; 2; 2]); [apply Permutation_sym, Permutation_cons_append|reflexivity]. }
    pose proof (C129_bound_attained (HubOut [] [2; 2; 2; 6]) 6 2 3 ltac:(lia) ltac:(lia) HP) as E.
    unfold hub_Sk in E. cbn [out_Nk map] in E. replace (map IZR [2; 2; 2; 6]%Z) with [INR 2; INR 2; INR 2; INR 6] by (cbn; repeat (f_equal; try lra)).
    rewrite E. apply Rdiv_lt_0_compat; [cbn; lra|]. apply sqrt_lt_R0. cbn. lra. }
  split; [cbn; lia|]. split; [reflexivity|]. split; [reflexivity|]. split; [exact P|]. split; [|split].
  - destruct (C130_truncnorm_blind_to_direction (fun a _ => a) [2; 2; 2; 6]%Z 3 ltac:(cbn; lia) eq_refl) as (_ & S).
    cbn [map Z.mul Z.sub] in S. change (map (fun x => 2 * 3 - x)%Z [2; 2; 2; 6]%Z) with [4; 4; 4; 0]%Z in S.
    change (map IZR [4; 4; 4; 0]%Z) with [IZR 4; IZR 4; IZR 4; IZR 0]. cbn [map] in P. 
    match type of S with skewR ?l = _ => change (skewR l < 0)%R end. rewrite S. cbn [map]. lra.
  - intros x [<- | [<- | [<- | [<- | []]]]]; lia.
  - exists 4%Z, 0%Z. cbn. repeat split; auto; lia.
Qed.

(* ------------------------------------------------------------------ *)
(** ** C131: renaming the objects renames the neighbours and occurrences and leaves
    hubness as it is, whatever the random draws and the partition
    implementation, if no object has two equally near candidates. *)
Theorem C131_renaming_objects :
  forall (argpart1 : list f64 -> list nat -> list nat), argpart_ok argpart1 ->
  forall (argpart2 : list f64 -> list nat -> list nat), argpart_ok argpart2 ->
  forall sp1 sp2 (D : arr2 f64) (k : nat) metric se1 se2 rps1 rps2 o1 o2 p q,
    nrow D = ncol D -> renaming (nrow D) p q ->
    (forall i, i < nrow D -> Permutation (rps1 i) (seq 0 (ncol D))) ->
    (forall i, i < nrow D -> Permutation (rps2 i) (seq 0 (ncol D))) ->
    (forall i, i < nrow D ->
       Nat.min k (ncol D - 1) <= count_if (usable metric D i) (ncol D) /\
       (forall x y, x < ncol D -> y < ncol D -> x <> y -> usable metric D i x = true -> usable metric D i y = true ->
          nearer metric (at2 D i x) (at2 D i y) = true \/ nearer metric (at2 D i y) (at2 D i x) = true)) ->
    hubness_serial argpart1 sp1 D (Z.of_nat k) metric se1 rps1 = Ok o1 ->
    hubness_serial argpart2 sp2 (renamed p D) (Z.of_nat k) metric se2 rps2 = Ok o2 ->
    (forall i, i < nrow D -> nth i (out_Dk o2) [] = map q (nth (p i) (out_Dk o1) [])) /\
    (forall i, i < nrow D -> nth i (out_Nk o2) 0 = nth (p i) (out_Nk o1) 0) /\
    hub_Sk o2 = hub_Sk o1.
Proof. intros. now apply (serial_renamed f64_cmp argpart1 H argpart2 H0 sp1 sp2 D k metric se1 se2 rps1 rps2 o1 o2 p q). Qed.

(** the run of C01-C06 on three objects, renamed by a rotation *)
Definition ex_p (i : nat) : nat := nth i [1; 2; 0] 0.
Definition ex_q (i : nat) : nat := nth i [2; 0; 1] 0.
Example C129_case :
  (exists o, hubness_serial ref_argpart false exD 1 "distance" true ex_rps = Ok o /\ 2 <= ncol exD /\ out_Nk o = [0; 1; 2]) /\
  (exists o, hubness_serial ref_argpart false exD 2 "similarity" true ex_rps = Ok o /\ ncol exD - 1 <= 2) /\
  (forall i j, i < nrow exD -> j < ncol exD -> i <> j -> nisfin (at2 exD i j) = true) /\
  2 < 6 /\ 1 <= 3 /\ Permutation (out_Nk (HubOut [] [2; 2; 2; 6])) (6 :: repeat 2 3).
Proof.
  split; [|split; [|split; [|split; [lia|split; [lia|]]]]].
  - destruct (hubness_serial ref_argpart false exD 1 "distance" true ex_rps) as [o|e] eqn:E.
    + exists o. split; [reflexivity|]. split; [vm_compute; lia|]. pose proof ex_run as X. rewrite E in X. now injection X.
    + pose proof ex_run as X. rewrite E in X. discriminate.
  - destruct (hubness_serial ref_argpart false exD 2 "similarity" true ex_rps) as [o|e] eqn:E.
    + exists o. split; [reflexivity|vm_compute; lia].
    + pose proof ex_run_sim as X. rewrite E in X. discriminate.
  - change (nrow exD) with 3. change (ncol exD) with 3. intros [|[|[|i]]] [|[|[|j]]] Hi Hj Hn; try lia; vm_compute; reflexivity.
  - cbn. transitivity (6 :: [2; 2; 2]); [apply Permutation_sym, Permutation_cons_append|reflexivity].
Qed.
Example C131_case :
  renaming (nrow exD) ex_p ex_q /\
  (forall i, i < nrow exD ->
       Nat.min 1 (ncol exD - 1) <= count_if (usable "distance" exD i) (ncol exD) /\
       (forall x y, x < ncol exD -> y < ncol exD -> x <> y -> usable "distance" exD i x = true -> usable "distance" exD i y = true ->
          nearer "distance" (at2 exD i x) (at2 exD i y) = true \/ nearer "distance" (at2 exD i y) (at2 exD i x) = true)) /\
  match hubness_serial ref_argpart false (renamed ex_p exD) 1 "distance" true ex_rps with
  | Ok o => (out_Dk o, out_Nk o) | Raise _ => ([], []) end = ([[1]; [0]; [1]], [1; 2; 0]).
Proof.
  change (nrow exD) with 3. change (ncol exD) with 3. split; [|split].
  - intros [|[|[|i]]] Hi; try lia; cbn; repeat split; lia.
  - intros [|[|[|i]]] Hi; try lia; (split; [vm_compute; lia|]); intros [|[|[|x]]] [|[|[|y]]] Hx Hy Hn; try lia; vm_compute; auto; discriminate.
  - vm_compute. reflexivity.
Qed.

Print Assumptions C129_hubness_bounded.
Print Assumptions C129_bound_attained.
Print Assumptions C129_complete_neighbourhoods.
Print Assumptions C130_truncnorm_blind_to_direction.
Print Assumptions C130_truncnorm_always_positive.
Print Assumptions C131_renaming_objects.
