(** Proofs about [hubness]. *)
From Coq Require Import String.
From Coq Require Import ZArith List Arith Lia Bool Permutation Reals.
From Verif Require Import Py Num Arr Sort Conc S_Neighbors P_Neighbors M_IO M_Hubness.
Import ListNotations.

Lemma NoDup_map_in {A B} (f : A -> B) l :
  (forall x y, In x l -> In y l -> f x = f y -> x = y) -> NoDup l -> NoDup (map f l).
Proof.
  intros H Hd. induction Hd as [|x l Hx Hd IH]; simpl; constructor.
  - intros Hin. apply in_map_iff in Hin as (y & E & Hy).
    apply H in E; [subst; contradiction | now right | now left].
  - apply IH. intros; apply H; auto; now right.
Qed.

Lemma cell_eq_spec a b : cell_eq a b = true <-> a = b.
Proof.
  destruct a as [a1 a2], b as [b1 b2]; unfold cell_eq; simpl.
  rewrite andb_true_iff, !Nat.eqb_eq. split; [intros (-> & ->); reflexivity|].
  intros E; injection E; auto.
Qed.

Lemma valid_metric_cases metric : valid_metric metric = true ->
  (metric = "distance"%string /\ is_dist metric = true /\ is_sim metric = false) \/
  (metric = "similarity"%string /\ is_dist metric = false /\ is_sim metric = true).
Proof.
  unfold valid_metric, is_dist, is_sim. intros H. apply orb_prop in H as [H|H];
  apply String.eqb_eq in H; subst; auto.
Qed.

Lemma check_metric_ok metric :
  check_valid_metric_parameter metric = Ok tt <-> valid_metric metric = true.
Proof.
  unfold check_valid_metric_parameter, valid_metric, guard.
  destruct (is_dist metric), (is_sim metric); simpl; split; congruence.
Qed.

(* ---------------------------------------------------------------- kth *)

Lemma zarange_nat a k : map (py_norm (a + k)) (zarange (Z.of_nat a) (Z.of_nat a + Z.of_nat k))
                        = seq a k.
Proof.
  unfold zarange. replace (Z.to_nat (Z.of_nat a + Z.of_nat k - Z.of_nat a)) with k by lia.
  rewrite map_map. replace (seq a k) with (map (fun i => a + i) (seq 0 k)).
  - apply map_ext. intros i. unfold py_norm.
    replace (Z.of_nat a + Z.of_nat i <? 0)%Z with false by (symmetry; apply Z.ltb_ge; lia).
    lia.
  - clear. induction k as [|k IH]; [reflexivity|]. rewrite !seq_S, map_app, IH. reflexivity.
Qed.

Lemma py_norm_nonneg m z : (0 <= z)%Z -> py_norm m z = Z.to_nat z.
Proof. intros H. unfold py_norm. now replace (z <? 0)%Z with false by (symmetry; apply Z.ltb_ge; lia). Qed.

Lemma In_zarange a b z : In z (zarange a b) <-> (a <= z < b)%Z.
Proof.
  unfold zarange. rewrite in_map_iff. split.
  - intros (i & <- & Hi). apply in_seq in Hi. lia.
  - intros H. exists (Z.to_nat (z - a)). split; [lia|]. apply in_seq. lia.
Qed.

Lemma zarange_length a b : length (zarange a b) = Z.to_nat (b - a).
Proof. unfold zarange. now rewrite map_length, seq_length. Qed.

Lemma zarange_NoDup a b : NoDup (zarange a b).
Proof.
  unfold zarange. apply NoDup_map_in; [intros; lia | apply seq_NoDup].
Qed.

Lemma zarange_norm m a k : a + k <= m ->
  map (py_norm m) (zarange (Z.of_nat a) (Z.of_nat (a + k))) = seq a k.
Proof.
  intros H. rewrite <- (zarange_nat a k). rewrite Nat2Z.inj_add.
  apply map_ext_in. intros z Hz. apply In_zarange in Hz.
  rewrite !py_norm_nonneg by lia. reflexivity.
Qed.

Lemma zarange_legal m a b : (0 <= a)%Z -> (b <= Z.of_nat m)%Z -> kth_legal m (zarange a b) = true.
Proof.
  intros H1 H2. unfold kth_legal. apply forallb_forall. intros z Hz.
  apply In_zarange in Hz. apply andb_true_intro. split; [apply Z.leb_le|apply Z.ltb_lt]; lia.
Qed.

Lemma kth_legal_spec m kth : kth_legal m kth = true <->
  forall z, In z kth -> (- Z.of_nat m <= z < Z.of_nat m)%Z.
Proof.
  unfold kth_legal. rewrite forallb_forall. split; intros H z Hz.
  - apply H in Hz. apply andb_prop in Hz as (H1 & H2). apply Z.leb_le in H1. apply Z.ltb_lt in H2. lia.
  - apply H in Hz. apply andb_true_intro. split; [apply Z.leb_le|apply Z.ltb_lt]; lia.
Qed.

Lemma py_norm_lt m z : (- Z.of_nat m <= z < Z.of_nat m)%Z -> py_norm m z < m.
Proof. intros H. unfold py_norm. destruct (Z.ltb_spec z 0); lia. Qed.

(** effective neighbourhood size *)
Lemma hub_k_of_nat k m : 0 < m -> hub_k (Z.of_nat k) m = Z.of_nat (Nat.min k (m - 1)).
Proof.
  intros Hm. unfold hub_k. destruct (Z.leb_spec (Z.of_nat m) (Z.of_nat k)); lia.
Qed.

Lemma hub_k_0 k : (hub_k k 0 < 0)%Z.
Proof. unfold hub_k. destruct (Z.leb_spec (Z.of_nat 0) k); lia. Qed.

Lemma hub_k_bound k m : (hub_k k m < Z.of_nat m)%Z.
Proof. unfold hub_k. destruct (Z.leb_spec (Z.of_nat m) k); lia. Qed.

Section S.
  Context {V : Type} {N : Num V} {toX : V -> xr} (CL : CmpLaws V N toX).

  Lemma dself_worst metric : hub_dself (V:=V) metric = worst metric.
  Proof. reflexivity. Qed.

  Lemma worst_not_fin metric : nisfin (worst (V:=V) metric) = false.
  Proof. unfold worst. destruct (is_sim metric); [apply (ninf_not_fin CL)|apply (inf_not_fin CL)]. Qed.

  Lemma list_set_length {A} (l : list A) i v : length (list_set l i v) = length l.
  Proof. unfold list_set. now rewrite map_length, seq_length. Qed.

  Lemma list_set_nth {A} (l : list A) i v j d : j < length l ->
    nth j (list_set l i v) d = if j =? i then v else nth j l d.
  Proof.
    intros H. unfold list_set. rewrite nth_map_seq by assumption.
    destruct (j =? i); [reflexivity|]. now apply nth_indep.
  Qed.

  Lemma prepare_shape sparse metric (D : arr2 V) :
    nrow (hub_prepare sparse metric D) = nrow D /\ ncol (hub_prepare sparse metric D) = ncol D.
  Proof.
    unfold hub_prepare. destruct sparse; [auto|].
    destruct (nrow D =? ncol D); auto.
  Qed.

  Lemma hub_row_length metric (D : arr2 V) i : length (hub_row metric D i) = ncol D.
  Proof.
    unfold hub_row. rewrite map_length. destruct (nrow D =? ncol D).
    - now rewrite list_set_length, rowl_length.
    - destruct (is_dist metric); rewrite ?map_length; apply rowl_length.
  Qed.

  Lemma vat_map_fun (f : V -> V) l j : j < length l -> vat (map f l) j = f (vat l j).
  Proof.
    intros H. unfold vat. rewrite (nth_indep _ nnan (f nnan)) by now rewrite map_length.
    apply map_nth.
  Qed.

  (** every row competes under the effective values of the specification *)
  Lemma hub_row_eff sparse metric (D : arr2 V) i j :
    i < nrow D -> j < ncol D ->
    vat (hub_row metric (hub_prepare sparse metric D) i) j = eff metric D i j.
  Proof.
    intros Hi Hj.
    destruct (prepare_shape sparse metric D) as (Pr & Pc).
    unfold hub_row. rewrite Pr, Pc.
    assert (Hrow : vat (rowl (hub_prepare sparse metric D) i) j
                   = at2 (hub_prepare sparse metric D) i j).
    { unfold vat. apply rowl_nth. now rewrite Pc. }
    assert (Lrow : length (rowl (hub_prepare sparse metric D) i) = ncol D)
      by now rewrite rowl_length, Pc.
    unfold eff, usable.
    destruct (nrow D =? ncol D) eqn:Esq.
    - rewrite vat_map_fun by now rewrite list_set_length, Lrow.
      unfold vat at 1 2. rewrite list_set_nth by now rewrite Lrow.
      fold (vat (rowl (hub_prepare sparse metric D) i) j). rewrite Hrow.
      destruct (j =? i) eqn:Eji; simpl.
      + rewrite dself_worst. rewrite worst_not_fin. now rewrite andb_false_r.
      + rewrite andb_true_r. unfold hub_prepare. destruct sparse.
        * destruct (nisfin (at2 D i j)); reflexivity.
        * rewrite Esq. simpl. rewrite Nat.eqb_sym, Eji.
          destruct (nisfin (at2 D i j)) eqn:F; simpl; [now rewrite F|].
          rewrite dself_worst, worst_not_fin. reflexivity.
    - assert (Hv : at2 (hub_prepare sparse metric D) i j
                   = if nisfin (at2 D i j) then at2 D i j
                     else if sparse then at2 D i j else worst metric).
      { unfold hub_prepare. destruct sparse; [destruct (nisfin _); reflexivity|].
        rewrite Esq. simpl. destruct (nisfin (at2 D i j)); reflexivity. }
      assert (Hnf : nisfin (at2 D i j) = false ->
                    nisfin (at2 (hub_prepare sparse metric D) i j) = false).
      { intros F. rewrite Hv, F. destruct sparse; [assumption|apply worst_not_fin]. }
      destruct (is_dist metric).
      + rewrite vat_map_fun by now rewrite map_length, Lrow.
        rewrite vat_map_fun by now rewrite Lrow. rewrite Hrow.
        destruct (nisfin (at2 D i j)) eqn:F; simpl.
        * rewrite Hv. destruct (neq (at2 D i j) n0); simpl.
          -- rewrite dself_worst, worst_not_fin. reflexivity.
          -- now rewrite F.
        * destruct (neq (at2 (hub_prepare sparse metric D) i j) n0).
          -- rewrite dself_worst, worst_not_fin. reflexivity.
          -- rewrite Hnf by reflexivity. reflexivity.
      + rewrite vat_map_fun by now rewrite Lrow. rewrite Hrow. simpl.
        rewrite andb_true_r.
        destruct (nisfin (at2 D i j)) eqn:F; simpl.
        * rewrite Hv, F. reflexivity.
        * rewrite Hnf by reflexivity. reflexivity.
  Qed.

  Variable argpart : list V -> list nat -> list nat.
  Hypothesis AP : argpart_ok argpart.

  Definition shuffle_wf (m : nat) (sh : option (list nat)) : Prop :=
    match sh with Some rp => Permutation rp (seq 0 m) | None => True end.

  (** With or without shuffling: the row result reads an admissible
      argpartition of the row. *)
  Lemma hub_row_nn_argpart metric kth sh (d : list V) :
    shuffle_wf (length d) sh ->
    kth_legal (length d) kth = true ->
    exists p, is_argpart d (map (py_norm (length d)) kth) p /\
      hub_row_nn argpart metric kth sh d
      = Ok (hub_order metric (take 0 p (map (py_norm (length d)) kth))).
  Proof.
    intros Hsh Hleg.
    assert (Hks : forall k, In k (map (py_norm (length d)) kth) -> k < length d).
    { intros k Hk. apply in_map_iff in Hk as (z & <- & Hz).
      apply py_norm_lt. now apply (proj1 (kth_legal_spec _ _) Hleg). }
    destruct sh as [rp|]; simpl in Hsh.
    - pose proof (perm_seq_length _ _ Hsh) as Lrp.
      assert (L2 : length (take nnan d rp) = length d) by now rewrite take_length.
      unfold hub_row_nn, np_argpartition. rewrite L2, Hleg.
      set (p := argpart (take nnan d rp) (map (py_norm (length d)) kth)).
      assert (Hp : is_argpart (take nnan d rp) (map (py_norm (length d)) kth) p).
      { apply AP. rewrite L2. assumption. }
      exists (map (fun j => nth j rp 0) p). split.
      + apply argpart_shuffle; auto.
      + cbn [bind]. f_equal. f_equal. unfold take. rewrite map_map.
        apply map_ext_in. intros k Hk.
        destruct Hp as (Hp & _). rewrite L2 in Hp.
        pose proof (perm_seq_length _ _ Hp) as Lp.
        rewrite (nth_indep (map (fun j => nth j rp 0) p) 0 ((fun j => nth j rp 0) 0))
          by (rewrite map_length, Lp; auto).
        now rewrite (map_nth (fun j => nth j rp 0)).
    - unfold hub_row_nn, np_argpartition. rewrite Hleg. cbn [bind].
      eexists. split; [|reflexivity]. apply AP. assumption.
  Qed.

  (** shape of one neighbour list, whatever kth *)
  Lemma hub_row_nn_shape metric kth sh (d : list V) nn :
    shuffle_wf (length d) sh ->
    NoDup (map (py_norm (length d)) kth) ->
    hub_row_nn argpart metric kth sh d = Ok nn ->
    length nn = length kth /\ NoDup nn /\ forall x, In x nn -> x < length d.
  Proof.
    intros Hsh Hnd H.
    destruct (kth_legal (length d) kth) eqn:Hleg.
    - destruct (hub_row_nn_argpart metric kth sh d Hsh Hleg) as (p & (Hp & _) & E).
      rewrite E in H. injection H as <-.
      pose proof (perm_seq_length _ _ Hp) as Lp.
      assert (Hks : forall k, In k (map (py_norm (length d)) kth) -> k < length d).
      { intros k Hk. apply in_map_iff in Hk as (z & <- & Hz).
        apply py_norm_lt. now apply (proj1 (kth_legal_spec _ _) Hleg). }
      assert (G : length (take 0 p (map (py_norm (length d)) kth)) = length kth /\
                  NoDup (take 0 p (map (py_norm (length d)) kth)) /\
                  (forall x, In x (take 0 p (map (py_norm (length d)) kth)) -> x < length d)).
      { repeat split.
        - now rewrite take_length, map_length.
        - unfold take. apply NoDup_map_in; [|assumption].
          intros x y Hx Hy Exy. apply (NoDup_nth p 0) in Exy; auto.
          + eapply perm_seq_NoDup; eauto.
          + rewrite Lp. auto.
          + rewrite Lp. auto.
        - intros x Hx. unfold take in Hx. apply in_map_iff in Hx as (k & <- & Hk).
          apply (perm_seq_nth p); auto. }
      unfold hub_order. destruct (is_sim metric); [|exact G].
      destruct G as (G1 & G2 & G3). repeat split.
      + now rewrite rev_length.
      + now apply NoDup_rev.
      + intros x Hx. apply G3. now apply in_rev.
    - exfalso. destruct sh as [rp|]; simpl in H; unfold np_argpartition in H.
      + rewrite take_length in H. simpl in Hsh. rewrite (perm_seq_length _ _ Hsh), Hleg in H.
        discriminate.
      + rewrite Hleg in H. discriminate.
  Qed.

  (** the parallel code's positions give a k-NN list *)
  Lemma hub_row_nn_par metric n m k sh (d : list V) :
    valid_metric metric = true -> length d = m -> k < m -> shuffle_wf m sh ->
    exists nn, hub_row_nn argpart metric (hub_kth_par metric n m (Z.of_nat k)) sh d = Ok nn /\
      knn_list (fun x y => nearer metric (vat d x) (vat d y)) m k nn.
  Proof.
    intros Hm Hl Hk Hsh. subst m.
    assert (Hleg : kth_legal (length d) (hub_kth_par metric n (length d) (Z.of_nat k)) = true).
    { unfold hub_kth_par. destruct (is_sim metric); apply zarange_legal; lia. }
    destruct (hub_row_nn_argpart metric (hub_kth_par metric n (length d) (Z.of_nat k)) sh d Hsh Hleg)
      as (p & Hp & E).
    rewrite E. eexists; split; [reflexivity|].
    unfold hub_kth_par in *. unfold hub_order, nearer.
    destruct (valid_metric_cases metric Hm) as [(-> & Hd & Hs)|(-> & Hd & Hs)]; rewrite Hs in *.
    - assert (Ez : map (py_norm (length d)) (zarange 0 (Z.of_nat k)) = seq 0 k)
        by (apply (zarange_norm (length d) 0 k); lia).
      rewrite Ez in *.
      rewrite take_seq_prefix by (destruct Hp as (Hp & _);
        rewrite (perm_seq_length _ _ Hp); lia).
      apply (argpart_knn_dist CL); [lia|assumption].
    - replace (Z.of_nat (length d) - Z.of_nat k)%Z with (Z.of_nat (length d - k)) in * by lia.
      assert (Ez : map (py_norm (length d))
        (zarange (Z.of_nat (length d - k)) (Z.of_nat (length d))) = seq (length d - k) k).
      { replace (Z.of_nat (length d)) with (Z.of_nat (length d - k + k)) by lia.
        apply zarange_norm. lia. }
      rewrite Ez in *.
      rewrite take_seq_suffix by (destruct Hp as (Hp & _);
        rewrite (perm_seq_length _ _ Hp); lia).
      apply (argpart_knn_sim CL); [lia|assumption].
  Qed.
End S.

Section T.
  Context {V : Type} {N : Num V} {toX : V -> xr} (CL : CmpLaws V N toX).
  Variable argpart : list V -> list nat -> list nat.
  Hypothesis AP : argpart_ok argpart.

  Lemma hub_row_nn_legal metric kth sh (d : list V) nn :
    shuffle_wf (length d) sh ->
    hub_row_nn argpart metric kth sh d = Ok nn -> kth_legal (length d) kth = true.
  Proof.
    intros Hsh H. destruct (kth_legal (length d) kth) eqn:E; [reflexivity|]. exfalso.
    destruct sh as [rp|]; simpl in H; unfold np_argpartition in H.
    - rewrite take_length in H. simpl in Hsh. rewrite (perm_seq_length _ _ Hsh), E in H. discriminate.
    - rewrite E in H. discriminate.
  Qed.

  Lemma py_norm_inj m z1 z2 :
    (- Z.of_nat m <= z1 < Z.of_nat m)%Z -> (- Z.of_nat m <= z2 < Z.of_nat m)%Z ->
    (Z.abs (z1 - z2) < Z.of_nat m)%Z -> py_norm m z1 = py_norm m z2 -> z1 = z2.
  Proof.
    unfold py_norm. destruct (Z.ltb_spec z1 0), (Z.ltb_spec z2 0); lia.
  Qed.

  Lemma kth_ser_NoDup metric n m (kz : Z) :
    (kz < Z.of_nat m)%Z ->
    kth_legal m (hub_kth_ser metric n m kz) = true ->
    NoDup (map (py_norm m) (hub_kth_ser metric n m kz)).
  Proof.
    intros Hk Hleg. pose proof (proj1 (kth_legal_spec _ _) Hleg) as Hl.
    apply NoDup_map_in.
    - intros z1 z2 H1 H2. apply py_norm_inj; auto.
      unfold hub_kth_ser in *. destruct (is_sim metric);
        apply In_zarange in H1; apply In_zarange in H2; lia.
    - unfold hub_kth_ser. destruct (is_sim metric); apply zarange_NoDup.
  Qed.

  Lemma kth_ser_length metric n m (kz : Z) : length (hub_kth_ser metric n m kz) = Z.to_nat kz.
  Proof. unfold hub_kth_ser. destruct (is_sim metric); rewrite zarange_length; f_equal; lia. Qed.
  Lemma kth_par_length metric n m (kz : Z) : length (hub_kth_par metric n m kz) = Z.to_nat kz.
  Proof. unfold hub_kth_par. destruct (is_sim metric); rewrite zarange_length; f_equal; lia. Qed.

  Definition rps_wf (D : arr2 V) (rps : nat -> list nat) : Prop :=
    forall i, i < nrow D -> Permutation (rps i) (seq 0 (ncol D)).

  Lemma hub_shuffle_wf (D : arr2 V) se rps i :
    rps_wf D rps -> i < nrow D -> shuffle_wf (ncol D) (hub_shuffle se rps i).
  Proof. intros H Hi. destruct se; simpl; [now apply H|exact I]. Qed.

  Lemma hubness_serial_inv sparse D k metric se rps o :
    hubness_serial argpart sparse D k metric se rps = Ok o ->
    valid_metric metric = true /\ (0 <= hub_k k (ncol D))%Z /\
    mapM (fun i => hub_row_nn argpart metric
                     (hub_kth_ser metric (nrow D) (ncol D) (hub_k k (ncol D)))
                     (hub_shuffle se rps i) (hub_row metric (hub_prepare sparse metric D) i))
         (seq 0 (nrow D)) = Ok (out_Dk o) /\
    out_Nk o = bincount (concat (out_Dk o)) (ncol D).
  Proof.
    unfold hubness_serial. intros H.
    apply bind_ok_inv in H as ([] & Hm & H).
    apply bind_ok_inv in H as ([] & Hk & H).
    apply bind_ok_inv in H as (Dk & HD & H).
    injection H as <-. simpl.
    repeat split; auto.
    - now apply check_metric_ok.
    - unfold guard in Hk. destruct (Z.ltb_spec (hub_k k (ncol D)) 0); [discriminate|assumption].
  Qed.

  (** rows of the result: one list of the right size per query, in range *)
  Lemma hubness_serial_rows sparse D k metric se rps o :
    rps_wf D rps ->
    hubness_serial argpart sparse D k metric se rps = Ok o ->
    length (out_Dk o) = nrow D /\
    forall r, In r (out_Dk o) -> length r = Z.to_nat (hub_k k (ncol D)) /\ NoDup r /\
      forall x, In x r -> x < ncol D.
  Proof.
    intros Hrp H. apply hubness_serial_inv in H as (_ & Hk & HM & _).
    split.
    - apply mapM_length in HM. now rewrite seq_length in HM.
    - intros r Hr. apply mapM_inv_map in HM.
      assert (exists i, In i (seq 0 (nrow D)) /\
        hub_row_nn argpart metric
                     (hub_kth_ser metric (nrow D) (ncol D) (hub_k k (ncol D)))
                     (hub_shuffle se rps i) (hub_row metric (hub_prepare sparse metric D) i)
        = Ok r) as (i & Hi & Er).
      { revert Hr. induction HM as [|a b la lb Hab HM IH]; intros Hr; [contradiction|].
        destruct Hr as [<-|Hr]; [exists a; split; [now left|assumption]|].
        destruct (IH Hr) as (i & ? & ?). exists i. split; [now right|assumption]. }
      apply in_seq in Hi.
      pose proof (hub_row_length metric (hub_prepare sparse metric D) i) as Lr.
      destruct (prepare_shape sparse metric D) as (_ & Pc). rewrite Pc in Lr.
      assert (Hsh : shuffle_wf (length (hub_row metric (hub_prepare sparse metric D) i))
                               (hub_shuffle se rps i)).
      { rewrite Lr. apply (hub_shuffle_wf D); auto. lia. }
      pose proof (hub_row_nn_legal _ _ _ _ _ Hsh Er) as Hleg. rewrite Lr in Hleg.
      pose proof (kth_ser_NoDup metric (nrow D) (ncol D) (hub_k k (ncol D))
                    (hub_k_bound _ _) Hleg) as Hnd.
      rewrite <- Lr in Hnd at 1.
      destruct (hub_row_nn_shape argpart AP metric _ _ _ _ Hsh Hnd Er) as (H1 & H2 & H3).
      rewrite kth_ser_length in H1. rewrite Lr in H3. auto.
  Qed.

  Lemma count_concat_le (rows : list (list nat)) x :
    (forall r, In r rows -> NoDup r) ->
    count_occ Nat.eq_dec (concat rows) x <= length rows.
  Proof.
    induction rows as [|r rows IH]; simpl; intros H; [lia|].
    rewrite count_occ_app.
    assert (count_occ Nat.eq_dec r x <= 1).
    { apply (proj1 (NoDup_count_occ Nat.eq_dec r)). apply H. now left. }
    assert (count_occ Nat.eq_dec (concat rows) x <= length rows) by (apply IH; intros; apply H; now right).
    lia.
  Qed.

  Lemma concat_length_const (rows : list (list nat)) c :
    (forall r, In r rows -> length r = c) -> length (concat rows) = length rows * c.
  Proof.
    induction rows as [|r rows IH]; simpl; intros H; [reflexivity|].
    rewrite app_length, H, IH; auto.
  Qed.

  Lemma occurrence_conservation (rows : list (list nat)) m K :
    (forall r, In r rows -> length r = K /\ NoDup r /\ forall x, In x r -> x < m) ->
    length (bincount (concat rows) m) = m /\
    sum_nat (bincount (concat rows) m) = length rows * K /\
    (forall c, In c (bincount (concat rows) m) -> c <= length rows) /\
    (forall x, x < m -> nth x (bincount (concat rows) m) 0
                        = length (filter (fun r => existsb (Nat.eqb x) r) rows)).
  Proof.
    intros H.
    assert (Hr : forall x, In x (concat rows) -> x < m).
    { intros x Hx. apply in_concat in Hx as (r & Hr & Hx). apply (H r Hr); assumption. }
    split; [now apply bincount_length|]. split; [|split].
    - rewrite bincount_sum by assumption. apply concat_length_const.
      intros r Hr'. now apply H.
    - rewrite bincount_eq by assumption. intros c Hc.
      apply in_map_iff in Hc as (x & <- & _). apply count_concat_le.
      intros r Hr'. now apply H.
    - intros x Hx. rewrite bincount_nth by assumption.
      clear Hr. induction rows as [|r rows IH]; [reflexivity|].
      simpl. rewrite count_occ_app, IH by (intros; apply H; now right).
      destruct (H r (or_introl eq_refl)) as (_ & Hnd & _).
      pose proof (proj1 (NoDup_count_occ Nat.eq_dec r) Hnd x) as Hle.
      destruct (existsb (Nat.eqb x) r) eqn:E.
      + apply existsb_exists in E as (y & Hy & E). apply Nat.eqb_eq in E. subst y.
        apply (count_occ_In Nat.eq_dec) in Hy. simpl. lia.
      + assert (~ In x r).
        { intros Hin. assert (existsb (Nat.eqb x) r = true); [|congruence].
          apply existsb_exists. exists x. split; [assumption|apply Nat.eqb_refl]. }
        apply (count_occ_not_In Nat.eq_dec) in H0. rewrite H0. reflexivity.
  Qed.

  (** serial and parallel positions coincide unless similarity and n <> m *)
  Lemma kth_ser_par metric n m kz : n = m \/ is_sim metric = false ->
    hub_kth_ser metric n m kz = hub_kth_par metric n m kz.
  Proof.
    unfold hub_kth_ser, hub_kth_par. intros [->|E]; [reflexivity|]. now rewrite E.
  Qed.

  (** the sequence of rows the workers compute *)
  Definition par_rows sparse D kz metric se rps : result (list (list nat)) :=
    mapM (fun i => hub_row_nn argpart metric (hub_kth_par metric (nrow D) (ncol D) kz)
                     (hub_shuffle se rps i) (hub_row metric (hub_prepare sparse metric D) i))
         (seq 0 (nrow D)).

  Lemma par_rows_ok sparse D k metric se rps :
    valid_metric metric = true -> rps_wf D rps -> k < ncol D ->
    exists rows, par_rows sparse D (Z.of_nat k) metric se rps = Ok rows /\
      length rows = nrow D /\
      forall i, i < nrow D ->
        knn_list (fun x y => nearer metric (eff metric D i x) (eff metric D i y))
                 (ncol D) k (nth i rows []).
  Proof.
    intros Hm Hrp Hk.
    assert (G : forall i, i < nrow D -> exists nn,
      hub_row_nn argpart metric (hub_kth_par metric (nrow D) (ncol D) (Z.of_nat k))
                 (hub_shuffle se rps i) (hub_row metric (hub_prepare sparse metric D) i) = Ok nn /\
      knn_list (fun x y => nearer metric (eff metric D i x) (eff metric D i y)) (ncol D) k nn).
    { intros i Hi.
      pose proof (hub_row_length metric (hub_prepare sparse metric D) i) as Lr.
      destruct (prepare_shape sparse metric D) as (_ & Pc). rewrite Pc in Lr.
      destruct (hub_row_nn_par CL argpart AP metric (nrow D) (ncol D) k (hub_shuffle se rps i)
                  (hub_row metric (hub_prepare sparse metric D) i)) as (nn & E & Hnn); auto.
      { now apply (hub_shuffle_wf D). }
      exists nn. split; [assumption|].
      eapply knn_list_ext; [|exact Hnn].
      intros x y Hx Hy. simpl. now rewrite !(hub_row_eff CL) by assumption. }
    unfold par_rows.
    destruct (mapM (fun i => hub_row_nn argpart metric
                (hub_kth_par metric (nrow D) (ncol D) (Z.of_nat k))
                (hub_shuffle se rps i) (hub_row metric (hub_prepare sparse metric D) i))
              (seq 0 (nrow D))) as [rows|e] eqn:E.
    - exists rows. split; [reflexivity|].
      pose proof (mapM_length _ _ _ E) as L. rewrite seq_length in L.
      split; [assumption|]. intros i Hi.
      pose proof (mapM_nth _ _ _ i 0 [] E) as En. rewrite seq_length in En.
      specialize (En Hi). rewrite seq_nth in En by assumption.
      destruct (G i Hi) as (nn & E1 & E2). simpl in En. rewrite E1 in En.
      injection En as <-. assumption.
    - exfalso. apply mapM_raise in E as (i & Hi & E). apply in_seq in Hi.
      destruct (G i) as (nn & E1 & _); [lia|]. congruence.
  Qed.

  Lemma In_hub_task i row c v :
    In (c, v) (hub_task i row) <-> exists b, b < length row /\ c = (i, b) /\ v = nth b row 0.
  Proof.
    unfold hub_task. rewrite in_map_iff. split.
    - intros (b & E & Hb). injection E as <- <-. apply in_seq in Hb. exists b. repeat split; lia.
    - intros (b & Hb & -> & ->). exists b. split; [reflexivity|]. apply in_seq. lia.
  Qed.

  Lemma hub_tasks_disjoint rows n :
    disjoint_tasks (map (fun i => hub_task i (nth i rows [])) (seq 0 n)).
  Proof.
    apply disjoint_indexed. intros i j c Hi Hj Hne H1 H2.
    apply in_map_iff in H1 as ([c1 v1] & <- & H1). apply In_hub_task in H1 as (b1 & _ & -> & _).
    apply in_map_iff in H2 as ([c2 v2] & E & H2). apply In_hub_task in H2 as (b2 & _ & -> & _).
    simpl in E. injection E as E _. congruence.
  Qed.

  (** whatever the schedule, reading the buffer back gives the rows *)
  Lemma hub_pool_rows rows n K mm :
    length rows = n -> (forall r, In r rows -> length r = K) ->
    pool_run cell_eq (fun _ => 0) (map (fun i => hub_task i (nth i rows [])) (seq 0 n)) mm ->
    read_rows n K mm = rows.
  Proof.
    intros Hn HK Hrun.
    assert (G : forall i b, i < n -> b < K -> mm (i, b) = nth b (nth i rows []) 0).
    { intros i b Hi Hb.
      rewrite (pool_run_serial cell_eq cell_eq_spec _ _ _ (hub_tasks_disjoint rows n) Hrun).
      assert (Lr : length (nth i rows []) = K) by (apply HK, nth_In; lia).
      apply (run_value cell_eq cell_eq_spec).
      - apply in_concat. exists (hub_task i (nth i rows [])). split.
        + apply in_map_iff. exists i. split; [reflexivity|]. apply in_seq. lia.
        + apply In_hub_task. exists b. repeat split; lia.
      - intros v' Hv. apply in_concat in Hv as (t & Ht & Hv).
        apply in_map_iff in Ht as (i' & <- & _). apply In_hub_task in Hv as (b' & _ & E & ->).
        injection E as <- <-. reflexivity. }
    unfold read_rows. apply (nth_ext _ _ [] []).
    - now rewrite map_length, seq_length.
    - intros i Hi. rewrite map_length, seq_length in Hi.
      rewrite nth_map_seq by assumption.
      assert (Lr : length (nth i rows []) = K) by (apply HK, nth_In; lia).
      apply (nth_ext _ _ 0 0).
      + now rewrite map_length, seq_length.
      + intros b Hb. rewrite map_length, seq_length in Hb.
        rewrite nth_map_seq by assumption. now apply G.
  Qed.

  (** Every outcome of the parallel code equals this sequential program. *)
  Definition hubness_par_seq sparse D k metric se rps : result hub_out :=
    bind (check_valid_metric_parameter metric) (fun _ =>
    bind (guard (hub_k k (ncol D) <? 0)%Z ValueError) (fun _ =>
    bind (par_rows sparse D (hub_k k (ncol D)) metric se rps) (fun Dk =>
    Ok (HubOut Dk (bincount (concat Dk) (ncol D)))))).

  Lemma hubness_parallel_det sparse D k metric se rps r :
    rps_wf D rps ->
    hubness_parallel argpart sparse D k metric se rps false r ->
    r = hubness_par_seq sparse D k metric se rps.
  Proof.
    intros Hrp H.
    assert (Hmode : valid_metric metric = true -> (0 <= hub_k k (ncol D))%Z ->
      exists rows, par_rows sparse D (hub_k k (ncol D)) metric se rps = Ok rows /\
        length rows = nrow D /\
        forall r, In r rows -> length r = Z.to_nat (hub_k k (ncol D))).
    { intros Hv Hk.
      destruct (par_rows_ok sparse D (Z.to_nat (hub_k k (ncol D))) metric se rps Hv Hrp)
        as (rows & E & L & Hrows).
      { pose proof (hub_k_bound k (ncol D)). lia. }
      rewrite Z2Nat.id in E by assumption.
      exists rows. repeat split; auto.
      intros r' Hr'. apply (In_nth _ _ []) in Hr' as (i & Hi & <-).
      eapply knn_len. apply Hrows. lia. }
    unfold hubness_par_seq.
    inversion H as [Hs|e Hs Hm|Hs Hm Hk|i e Hs Hm Hk Hi Hr|rows mm Dk Hs Hm Hk Hr Hp HD]; subst.
    - discriminate.
    - rewrite Hm. reflexivity.
    - rewrite Hm. simpl. replace (hub_k k (ncol D) <? 0)%Z with true by (symmetry; apply Z.ltb_lt; lia).
      reflexivity.
    - exfalso. destruct Hmode as (rows & E & L & _); auto.
      { now apply check_metric_ok. }
      unfold par_rows in E.
      pose proof (mapM_nth _ _ _ i 0 [] E) as En. rewrite seq_length in En. specialize (En Hi).
      rewrite seq_nth in En by assumption. simpl in En. congruence.
    - rewrite Hm. simpl. replace (hub_k k (ncol D) <? 0)%Z with false by (symmetry; apply Z.ltb_ge; lia).
      simpl. destruct Hmode as (rows' & E & L & HK); auto.
      { now apply check_metric_ok. }
      unfold par_rows in *. rewrite E in Hr. injection Hr as <-. rewrite E. simpl.
      rewrite (hub_pool_rows rows' (nrow D) _ mm); auto.
  Qed.

  Lemma hubness_parallel_exists sparse D k metric se rps seeded :
    exists r, hubness_parallel argpart sparse D k metric se rps seeded r.
  Proof.
    destruct seeded; [eexists; now apply hp_seed|].
    destruct (check_valid_metric_parameter metric) as [[]|e] eqn:Em;
      [|eexists; eapply hp_metric; eauto].
    destruct (Z_lt_le_dec (hub_k k (ncol D)) 0) as [Hk|Hk]; [eexists; now apply hp_negk|].
    destruct (par_rows sparse D (hub_k k (ncol D)) metric se rps) as [rows|e] eqn:E.
    - eexists. eapply hp_ok; eauto. apply pool_run_exists.
    - unfold par_rows in E. apply mapM_raise in E as (i & Hi & E). apply in_seq in Hi.
      eexists. eapply hp_task_raise; eauto. lia.
  Qed.

  Lemma par_seq_serial sparse D k metric se rps :
    nrow D = ncol D \/ metric = "distance"%string ->
    hubness_par_seq sparse D k metric se rps = hubness_serial argpart sparse D k metric se rps.
  Proof.
    intros H. unfold hubness_par_seq, hubness_serial, par_rows.
    rewrite kth_ser_par; [reflexivity|]. destruct H as [H| ->]; auto.
  Qed.

  (** main correctness of the parallel code, hence of the serial code where
      they agree *)
  Lemma hubness_par_seq_knn sparse D k metric se rps :
    valid_metric metric = true -> rps_wf D rps -> 0 < ncol D ->
    exists o, hubness_par_seq sparse D (Z.of_nat k) metric se rps = Ok o /\
      length (out_Dk o) = nrow D /\
      out_Nk o = bincount (concat (out_Dk o)) (ncol D) /\
      forall i, i < nrow D ->
        knn_list (fun x y => nearer metric (eff metric D i x) (eff metric D i y))
                 (ncol D) (Nat.min k (ncol D - 1)) (nth i (out_Dk o) []).
  Proof.
    intros Hv Hrp Hm. unfold hubness_par_seq.
    rewrite hub_k_of_nat by assumption.
    replace (Z.of_nat (Nat.min k (ncol D - 1)) <? 0)%Z with false by (symmetry; apply Z.ltb_ge; lia).
    rewrite (proj2 (check_metric_ok metric) Hv). simpl.
    destruct (par_rows_ok sparse D (Nat.min k (ncol D - 1)) metric se rps Hv Hrp) as (rows & E & L & H).
    { lia. }
    rewrite E. simpl. eexists; split; [reflexivity|]. auto.
  Qed.

  Lemma usable_beats metric (D : arr2 V) i x y :
    usable metric D i x = true -> usable metric D i y = false ->
    nearer metric (eff metric D i x) (eff metric D i y) = true.
  Proof.
    intros Hx Hy. unfold eff. rewrite Hx, Hy. unfold usable in Hx.
    apply andb_prop in Hx as (Hf & _). unfold nearer, worst.
    destruct (is_sim metric); [now apply (ninf_lt_fin CL)|now apply (fin_lt_inf CL)].
  Qed.

  Lemma nearer_trans metric (x y z : V) :
    nearer metric x y = true -> nearer metric y z = true -> nearer metric x z = true.
  Proof. unfold nearer. destruct (is_sim metric); intros; eapply (nlt_trans CL); eauto. Qed.
  Lemma nearer_irrefl metric (x : V) : nearer metric x x = false.
  Proof. unfold nearer. destruct (is_sim metric); apply (nlt_irrefl CL). Qed.
End T.
