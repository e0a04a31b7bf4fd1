(** Proofs about parametric Mutual Proximity of sparse similarity matrices. *)
From Coq Require Import String.
From Coq Require Import ZArith List Arith Lia Bool Permutation Reals Lra.
From Verif Require Import Py Num NumT Arr S_Neighbors S_MP S_Approx S_MPDist M_IO M_MPEmpiric M_Approx M_MPDist.
From Verif Require Import P_MPEmpiric P_MPEmpiric2 P_ApproxMPG P_MPDist P_MPDist2 P_MPDist3 P_Hubness.
Import ListNotations.
Local Open Scope nat_scope.

(** stored column = known similarities, and 1 for the object itself if it is among
    the rows *)
Lemma sp_col_perm (S : smat xr) n w train j : similarities (stored S) n w -> j < n ->
  (forall l, In l train -> l < n) -> NoDup train ->
  exists c, sp_col S train j = map XFin c /\
    Permutation c (if in_dec Nat.eq_dec j train then 1%R :: known w train j else known w train j).
Proof.
  intros (A & B & _) Hj Ht ND. unfold sp_col, known.
  induction train as [|l tr IH].
  - exists []. split; [reflexivity|]. destruct (in_dec Nat.eq_dec j []) as [[]|]; constructor.
  - inversion ND as [|? ? Nl ND']; subst.
    destruct IH as (c & E & P); [intros; apply Ht; now right|assumption|].
    cbn [flat_map]. rewrite E. rewrite A by (auto; apply Ht; now left).
    destruct (Nat.eqb_spec l j) as [->|Hne].
    + rewrite B by exact Hj. cbn [option_map]. exists (1%R :: c). split; [reflexivity|].
      destruct (in_dec Nat.eq_dec j (j :: tr)) as [_|I]; [|exfalso; apply I; now left].
      destruct (in_dec Nat.eq_dec j tr); [contradiction|]. cbn [app]. now apply perm_skip.
    + assert (EI : (if in_dec Nat.eq_dec j (l :: tr) then true else false) = (if in_dec Nat.eq_dec j tr then true else false)).
      { destruct (in_dec Nat.eq_dec j (l :: tr)) as [[I|I]|I], (in_dec Nat.eq_dec j tr) as [I2|I2]; try reflexivity; try contradiction; try congruence.
        exfalso. apply I. now right. }
      destruct (w l j) as [x|]; cbn [option_map].
      * exists (x :: c). split; [reflexivity|]. cbn [app].
        destruct (in_dec Nat.eq_dec j (l :: tr)), (in_dec Nat.eq_dec j tr); try discriminate.
        -- eapply perm_trans; [apply perm_skip, P|]. apply perm_swap.
        -- now apply perm_skip.
      * exists c. split; [reflexivity|]. cbn [app].
        destruct (in_dec Nat.eq_dec j (l :: tr)), (in_dec Nat.eq_dec j tr); try discriminate; exact P.
Qed.

(** [E1 - mu^2] for the objects the parameters are estimated from *)
Section Moments.
  Variables (S : smat xr) (n : nat) (w : nat -> nat -> option R) (train : list nat) (j : nat).
  Hypothesis (HS : similarities (stored S) n w) (Hj : j < n).
  Hypothesis (Ht : forall l, In l train -> l < n) (ND : NoDup train).

  Lemma sp_mu_in : In j train -> known w train j <> [] ->
    sp_mu xsum S train j = XFin (rmean (known w train j)).
  Proof.
    intros I NE. destruct (sp_col_perm S n w train j HS Hj Ht ND) as (c & E & P).
    destruct (in_dec Nat.eq_dec j train); [|contradiction].
    unfold sp_mu. cbv zeta. rewrite E, xsum_fin, map_length, (Permutation_length P), (rsum_perm _ _ P).
    cbn [length]. change (rsum (1%R :: known w train j)) with (1 + rsum (known w train j))%R.
    replace (Z.of_nat (Datatypes.S (length (known w train j))) - 1)%Z with (Z.of_nat (length (known w train j))) by lia.
    change (nsub (XFin (1 + rsum (known w train j))) n1) with (XFin (1 + rsum (known w train j) + - 1)).
    cbn [nofZ Num_xr]. rewrite <- INR_IZR_INZ. rewrite xdiv_ok by now apply INR_len_ne.
    unfold rmean. f_equal. f_equal. ring.
  Qed.
  Lemma sp_E1_in : In j train -> known w train j <> [] ->
    sp_E1 xsum S train j = XFin (rmean (map (fun x => x * x)%R (known w train j))).
  Proof.
    intros I NE. destruct (sp_col_perm S n w train j HS Hj Ht ND) as (c & E & P).
    destruct (in_dec Nat.eq_dec j train); [|contradiction].
    unfold sp_E1. cbv zeta. rewrite E, map_length.
    rewrite map_map, (map_ext _ (fun x => XFin (x * x)%R)) by reflexivity.
    rewrite <- (map_map (fun x => x * x)%R XFin), xsum_fin.
    rewrite (Permutation_length P), (rsum_perm _ _ (Permutation_map (fun x => x * x)%R P)).
    cbn [length map]. set (q := map (fun x => (x * x)%R) (known w train j)).
    change (rsum ((1 * 1)%R :: q)) with (1 * 1 + rsum q)%R.
    replace (Z.of_nat (Datatypes.S (length (known w train j))) - 1)%Z with (Z.of_nat (length (known w train j))) by lia.
    change (nsub (XFin (1 * 1 + rsum q)) n1) with (XFin (1 * 1 + rsum q + - 1)).
    cbn [nofZ Num_xr]. rewrite <- INR_IZR_INZ. rewrite xdiv_ok by now apply INR_len_ne.
    unfold rmean, q. rewrite map_length. f_equal. f_equal. ring.
  Qed.
  Lemma sp_sd_in : In j train -> known w train j <> [] ->
    sp_sd xsum S train j = XFin (rstd (known w train j)).
  Proof.
    intros I NE. unfold sp_sd. rewrite sp_mu_in, sp_E1_in by assumption.
    change (nsub (XFin (rmean (map (fun x => x * x)%R (known w train j)))) (nmul (XFin (rmean (known w train j))) (XFin (rmean (known w train j)))))
      with (XFin (rmean (map (fun x => x * x)%R (known w train j)) - rmean (known w train j) * rmean (known w train j))).
    rewrite <- rstd_sq by exact NE. cbn [nsqrt Num_xr]. unfold xsqrt.
    pose proof (rstd_nonneg (known w train j)).
    match goal with |- (if ?c then _ else _) = _ => destruct c as [L|L] end; [exfalso; nra|].
    f_equal. now apply sqrt_square.
  Qed.

  (** a held out object: 1 is subtracted although its self similarity is not in the sum *)
  Lemma sp_mu_out : ~ In j train -> 2 <= length (known w train j) ->
    sp_mu xsum S train j = XFin ((rsum (known w train j) - 1) / (INR (length (known w train j)) - 1))%R.
  Proof.
    intros I L. destruct (sp_col_perm S n w train j HS Hj Ht ND) as (c & E & P).
    destruct (in_dec Nat.eq_dec j train); [contradiction|].
    unfold sp_mu. cbv zeta. rewrite E, xsum_fin, map_length, (Permutation_length P), (rsum_perm _ _ P).
    change (nsub (XFin (rsum (known w train j))) n1) with (XFin (rsum (known w train j) + - 1)).
    cbn [nofZ Num_xr]. rewrite minus_IZR, <- INR_IZR_INZ. rewrite xdiv_ok; [reflexivity|].
    apply le_INR in L. change (INR 2) with (1 + 1)%R in L. lra.
  Qed.
  (** ... so that small similarities give a negative variance *)
  Lemma sp_sd_out : ~ In j train -> known w train j <> [] ->
    (rsum (map (fun x => x * x)%R (known w train j)) < 1)%R ->
    sp_sd xsum S train j = XNaN.
  Proof.
    intros I NE Hq. destruct (sp_col_perm S n w train j HS Hj Ht ND) as (c & E & P).
    destruct (in_dec Nat.eq_dec j train); [contradiction|].
    set (k := known w train j) in *. set (q := rsum (map (fun x => x * x)%R k)) in *.
    assert (Em : sp_mu xsum S train j = ndiv (XFin (rsum k + - 1)) (XFin (INR (length k) - 1))).
    { unfold sp_mu. cbv zeta. rewrite E, xsum_fin, map_length, (Permutation_length P), (rsum_perm _ _ P).
      cbn [nofZ Num_xr]. rewrite minus_IZR, <- INR_IZR_INZ. reflexivity. }
    assert (E1 : sp_E1 xsum S train j = ndiv (XFin (q + - 1)) (XFin (INR (length k) - 1))).
    { unfold sp_E1. cbv zeta. rewrite E, map_length.
      rewrite map_map, (map_ext _ (fun x => XFin (x * x)%R)) by reflexivity.
      rewrite <- (map_map (fun x => x * x)%R XFin), xsum_fin.
      rewrite (Permutation_length P), (rsum_perm _ _ (Permutation_map (fun x => x * x)%R P)).
      cbn [nofZ Num_xr]. rewrite minus_IZR, <- INR_IZR_INZ. reflexivity. }
    assert (L1 : (1 <= INR (length k))%R).
    { change 1%R with (INR 1). apply le_INR. destruct k; [congruence|cbn; lia]. }
    unfold sp_sd. rewrite Em, E1. clear Em E1.
    destruct (Req_EM_T (INR (length k) - 1) 0) as [Z|Z].
    - rewrite Z. cbn. destruct (Req_EM_T 0 0) as [_|]; [|lra].
      unfold rsgn. destruct (Rlt_dec (q + - 1) 0); [|lra]. cbn [xinf_s].
      destruct (Rlt_dec (rsum k + - 1) 0); [reflexivity|]. destruct (Rlt_dec 0 (rsum k + - 1)); reflexivity.
    - rewrite !xdiv_ok by exact Z. cbn.
      set (a := ((rsum k + - 1) / (INR (length k) - 1))%R).
      assert (Ng : ((q + - 1) / (INR (length k) - 1) < 0)%R).
      { assert (0 < / (INR (length k) - 1))%R by (apply Rinv_0_lt_compat; lra). unfold Rdiv. nra. }
      match goal with |- (if ?c then _ else _) = _ => destruct c as [Hl|Hl] end; [reflexivity|]. exfalso. apply Hl. nra.
  Qed.
End Moments.

(** ** cells *)
Section Cells.
  Variables (Phi : R -> R) (cdf sf : xr -> xr -> xr -> xr).
  Hypothesis NF : normal_family Phi cdf sf.
  Variables (S : smat xr) (n : nat) (w : nat -> nat -> option R).
  Hypothesis (HR : srow S = n) (HC : scol S = n) (HS : similarities (stored S) n w).

  Lemma sval_w i j : i < n -> j < n -> sval S i j = match w i j with Some x => XFin x | None => XFin 0 end.
  Proof. intros Hi Hj. destruct HS as (A & _). unfold sval. rewrite A by assumption. now destruct (w i j). Qed.

  Lemma unit_diag_ok : 0 < n -> unit_diagonal S = true.
  Proof.
    intros Hn. unfold unit_diagonal. rewrite HR. destruct (Nat.eqb_spec n 0); [lia|]. cbn [negb andb].
    apply forallb_forall. intros i Hi. apply in_seq in Hi. rewrite sval_w by lia.
    destruct HS as (_ & B & _). rewrite B by lia. cbn. destruct (Req_EM_T 1 1); [reflexivity|lra].
  Qed.
  Lemma gaussi_csr_ok metric ss mn test : 0 < n -> valid_metric metric = true ->
    exists M, gaussi_csr xsum cdf S metric ss mn test = Ok M /\ gaussi_sparse xsum cdf S test = Ok M.
  Proof.
    intros Hn Hv. unfold gaussi_csr. unfold gaussi_sparse. rewrite (unit_diag_ok Hn). cbn [negb guard bind].
    eexists. split; [|reflexivity]. unfold check_distance_matrix_shape, check_is_nD_array. cbn. unfold dim0, dim1. cbn.
    rewrite HR, HC, Nat.eqb_refl. cbn. destruct (valid_cases metric Hv) as [-> | ->]; reflexivity.
  Qed.

  (** value of the pair, with the moments of any training set *)
  Lemma gis_value_none train i j : i < n -> j < n -> i <> j -> w i j = None -> gis_value xsum cdf S train i j = XFin 0.
  Proof.
    intros Hi Hj Hne Hw. destruct HS as (_ & _ & C).
    assert (Hw' : w j i = None) by (destruct (C i j Hi Hj) as (<- & _); exact Hw).
    unfold gis_value. rewrite !sval_w, Hw, Hw' by assumption. cbn. destruct (Req_EM_T 0 0); [|lra].
    cbn. f_equal. ring.
  Qed.
  Lemma gis_value_some train i j x : i < n -> j < n -> i <> j -> w i j = Some x ->
    gis_value xsum cdf S train i j
    = nmul (cdf (XFin x) (sp_mu xsum S train i) (sp_sd xsum S train i))
           (cdf (XFin x) (sp_mu xsum S train j) (sp_sd xsum S train j)).
  Proof.
    intros Hi Hj Hne Hw. destruct HS as (_ & _ & C). destruct (C i j Hi Hj) as (E & NZ).
    assert (Hw' : w j i = Some x) by (rewrite <- E; exact Hw).
    unfold gis_value. rewrite !sval_w, Hw, Hw' by assumption. cbn [neq Num_xr n0 nofZ xeq].
    destruct (Req_EM_T x 0) as [->|]; [congruence|]. reflexivity.
  Qed.

  Lemma gaussi_sparse_at test M i j : gaussi_sparse xsum cdf S test = Ok M -> i < n -> j < n -> i <> j ->
    sval M i j = gis_value xsum cdf S (training n test) (Nat.min i j) (Nat.max i j).
  Proof.
    intros H Hi Hj Hne. unfold gaussi_sparse in H. apply bind_ok_inv in H as ([] & _ & H).
    cbv zeta in H. rewrite HR, train_rows_spec in H. injection H as <-. unfold sval. cbn [stored].
    assert (L : forall v : xr, oval (sp_plus (lil v) None) = v /\ oval (sp_plus None (lil v)) = v).
    { intros v. unfold lil, nonzero. cbn [neq Num_xr].
      destruct v as [| |x|]; cbn; try (split; reflexivity).
      destruct (Req_EM_T x 0) as [->|Hx]; cbn; [split; reflexivity|].
      unfold nonzero. cbn. rewrite ?Rplus_0_r, ?Rplus_0_l.
      destruct (Req_EM_T x 0); [contradiction|]. split; cbn; f_equal; ring. }
    destruct (Nat.lt_trichotomy i j) as [Hl|[->|Hl]]; [|congruence|].
    - rewrite Nat.min_l, Nat.max_r by lia.
      destruct (Nat.leb_spec i j); [|lia]. destruct (Nat.eqb_spec i j); [contradiction|].
      destruct (Nat.leb_spec j i); [lia|]. apply L.
    - rewrite Nat.min_r, Nat.max_l by lia.
      destruct (Nat.leb_spec i j); [lia|]. destruct (Nat.leb_spec j i); [|lia].
      destruct (Nat.eqb_spec j i); [congruence|]. apply L.
  Qed.
  Lemma gaussi_sparse_diag test M i : gaussi_sparse xsum cdf S test = Ok M -> i < n -> sval M i i = XFin 1.
  Proof.
    intros H Hi. unfold gaussi_sparse in H. apply bind_ok_inv in H as ([] & _ & H).
    cbv zeta in H. injection H as <-. unfold sval. cbn [stored]. rewrite Nat.leb_refl, Nat.eqb_refl.
    unfold lil, half, nonzero. cbn. destruct (Req_EM_T 2 0); [lra|]. cbn. destruct (Req_EM_T (1 / 2) 0); [lra|]. cbn.
    unfold nonzero. cbn. destruct (Req_EM_T (1 / 2 + 1 / 2) 0); [lra|]. cbn. f_equal. lra.
  Qed.
  Lemma gaussi_sparse_shape test M : gaussi_sparse xsum cdf S test = Ok M -> srow M = n /\ scol M = n.
  Proof.
    intros H. unfold gaussi_sparse in H. apply bind_ok_inv in H as ([] & _ & H).
    cbv zeta in H. injection H as <-. split; assumption.
  Qed.
  Lemma known_ne train i j x : In i train -> i <> j -> w i j = Some x -> known w train j <> [].
  Proof.
    intros I Hne Hw C. unfold known in C.
    assert (X : In x (flat_map (fun l => if l =? j then [] else match w l j with Some v => [v] | None => [] end) train)).
    { apply in_flat_map. exists i. split; [exact I|]. destruct (Nat.eqb_spec i j); [contradiction|]. rewrite Hw. now left. }
    rewrite C in X. contradiction.
  Qed.
End Cells.

(** ** the rows that are kept *)
Section Finish.
  Context {V : Type} {N : Num V}.
  Variable r32 : V -> V.
  Lemma sp_finish_later (S : smat V) m v i j : m < row_nnz S i -> row_nnz S j <= m -> j < i ->
    stored (sp_finish r32 S m v) i j = None.
  Proof.
    intros Hi Hj Hl. unfold sp_finish. cbn [stored]. cbv zeta.
    destruct (Nat.leb_spec (row_nnz S i) m); [lia|]. destruct (Nat.leb_spec (row_nnz S j) m); [|lia].
    destruct (Nat.leb_spec i j); [lia|]. cbn [andb negb]. rewrite andb_false_r. reflexivity.
  Qed.
  Lemma sp_finish_kept (S : smat V) m v i j : row_nnz S i <= m ->
    stored (sp_finish r32 S m v) i j = if nonzero (r32 (sval S i j)) then Some (r32 (sval S i j)) else None.
  Proof.
    intros Hi. unfold sp_finish. cbn [stored]. cbv zeta. destruct (Nat.leb_spec (row_nnz S i) m); [|lia]. reflexivity.
  Qed.
  Lemma sp_finish_rich (S : smat V) m v i j : m < row_nnz S i -> i < j ->
    stored (sp_finish r32 S m v) i j =
    if nonzero (r32 (v i j)) then
      (if nonzero (nadd (r32 (v i j)) n0) then Some (r32 (nadd (r32 (v i j)) n0)) else None)
    else None.
  Proof.
    intros Hi Hl. unfold sp_finish. cbn [stored]. cbv zeta. destruct (Nat.leb_spec (row_nnz S i) m); [lia|].
    destruct (Nat.leb_spec i j); [|lia]. destruct (Nat.leb_spec j i); [lia|]. cbn [andb negb].
    destruct (Nat.eqb_spec i j); [lia|]. unfold lil. destruct (nonzero (r32 (v i j))); [|reflexivity].
    cbn [sp_plus oval]. destruct (nonzero (nadd (r32 (v i j)) n0)); reflexivity.
  Qed.
  Lemma sp_finish_rich_mirror (S : smat V) m v i j : m < row_nnz S i -> m < row_nnz S j -> j < i ->
    stored (sp_finish r32 S m v) i j =
    if nonzero (r32 (v j i)) then
      (if nonzero (nadd n0 (r32 (v j i))) then Some (r32 (nadd n0 (r32 (v j i)))) else None)
    else None.
  Proof.
    intros Hi Hj Hl. unfold sp_finish. cbn [stored]. cbv zeta. destruct (Nat.leb_spec (row_nnz S i) m); [lia|].
    destruct (Nat.leb_spec (row_nnz S j) m); [lia|].
    destruct (Nat.leb_spec i j); [lia|]. destruct (Nat.leb_spec j i); [|lia]. cbn [andb negb].
    destruct (Nat.eqb_spec j i); [lia|]. unfold lil. destruct (nonzero (r32 (v j i))); [|reflexivity].
    cbn [sp_plus oval]. destruct (nonzero (nadd n0 (r32 (v j i)))); reflexivity.
  Qed.
End Finish.

(** ** Gamma parameters of sparse columns *)
Lemma rvar1_moments l : 2 <= length l ->
  (INR (length l) / (INR (length l) - 1) * (rmean (map (fun x => x * x) l) - rmean l * rmean l) = rvar1 l)%R.
Proof.
  intros L. assert (NE : l <> []) by (destruct l; [cbn in L; lia|discriminate]).
  rewrite <- var_eq by exact NE. unfold rvar1, rmean at 1. rewrite map_length.
  rewrite minus_INR by lia. change (INR 1) with 1%R. apply le_INR in L. change (INR 2) with (1 + 1)%R in L.
  field. lra.
Qed.
Section GammaCells.
  Variables (G : R -> R -> R) (gam : xr -> xr -> xr).
  Hypothesis GF : gamma_family G gam.
  Variables (S : smat xr) (n : nat) (w : nat -> nat -> option R) (train : list nat).
  Hypothesis (HS : similarities (stored S) n w).
  Hypothesis (Ht : forall l, In l train -> l < n) (ND : NoDup train).

  Lemma sp_va_in j : j < n -> In j train -> 2 <= length (known w train j) ->
    sp_va xsum S train j = XFin (rvar1 (known w train j)).
  Proof.
    intros Hj I L. assert (NE : known w train j <> []) by (destruct (known w train j); [cbn in L; lia|discriminate]).
    unfold sp_va. rewrite (sp_mu_in S n w), (sp_E1_in S n w) by assumption.
    destruct (sp_col_perm S n w train j HS Hj Ht ND) as (c & E & P).
    destruct (in_dec Nat.eq_dec j train); [|contradiction]. rewrite E, map_length, (Permutation_length P). cbn [length].
    replace (Z.of_nat (Datatypes.S (length (known w train j))) - 1)%Z with (Z.of_nat (length (known w train j))) by lia.
    cbv zeta. cbn [nofZ Num_xr]. rewrite minus_IZR, <- INR_IZR_INZ.
    assert (L' := L). apply le_INR in L'. change (INR 2) with (1 + 1)%R in L'.
    rewrite xdiv_ok by lra. cbn [nmul nsub Num_xr xmul xsub xadd xopp]. f_equal.
    rewrite <- rvar1_moments by exact L. reflexivity.
  Qed.
  (** distribution function of object k at x *)
  Definition wcdf (k : nat) (x : R) : R :=
    G (gamma_shape (known w train k)) (Rmax 0 x / gamma_scale (known w train k))%R.
  Lemma gamcdf_sp k x : k < n -> In k train -> 2 <= length (known w train k) ->
    (0 < rmean (known w train k))%R -> rvar1 (known w train k) <> 0%R ->
    gamcdf gam (XFin x) (sp_A xsum S train k) (sp_B xsum S train k) = XFin (wcdf k x).
  Proof.
    intros Hk I L Pm Vn. assert (NE : known w train k <> []) by (destruct (known w train k); [cbn in L; lia|discriminate]).
    assert (Vp : (0 < rvar1 (known w train k))%R) by (pose proof (rvar1_nonneg _ L); lra).
    assert (EV : variance_of (known w train k) = rvar1 (known w train k)) by (unfold variance_of; destruct (Req_EM_T (rvar1 (known w train k)) 0); [contradiction|reflexivity]).
    assert (PA : (0 < gamma_shape (known w train k))%R).
    { unfold gamma_shape. rewrite EV. apply Rmult_lt_0_compat; [now apply Rmult_lt_0_compat|now apply Rinv_0_lt_compat]. }
    assert (PB : (0 < gamma_scale (known w train k))%R).
    { unfold gamma_scale. rewrite EV. apply Rmult_lt_0_compat; [assumption|now apply Rinv_0_lt_compat]. }
    assert (EA : sp_A xsum S train k = XFin (gamma_shape (known w train k))).
    { unfold sp_A. rewrite sp_va_in, (sp_mu_in S n w) by assumption. cbn [nmul Num_xr xmul].
      rewrite xdiv_ok by lra. cbv zeta. rewrite <- EV. fold (gamma_shape (known w train k)). cbn.
      destruct (Rlt_dec (gamma_shape (known w train k)) 0); [lra|reflexivity]. }
    assert (EB : sp_B xsum S train k = XFin (gamma_scale (known w train k))).
    { unfold sp_B. rewrite sp_va_in, (sp_mu_in S n w) by assumption.
      rewrite xdiv_ok by lra. cbv zeta. rewrite <- EV. fold (gamma_scale (known w train k)). cbn.
      destruct (Rle_dec (gamma_scale (known w train k)) 0); [lra|reflexivity]. }
    rewrite EA, EB. exact (proj1 (gamcdf_xr G gam x _ _ GF PA PB)).
  Qed.
  Lemma gas_value_xr i j : i < n -> j < n ->
    (forall k, k = i \/ k = j -> In k train /\ 2 <= length (known w train k) /\
       (0 < rmean (known w train k))%R /\ rvar1 (known w train k) <> 0%R) ->
    let x := match w i j with Some x => x | None => 0%R end in
    gas_value xsum gam S train i j = XFin (wcdf i x * wcdf j x).
  Proof.
    intros Hi Hj HK x. unfold gas_value.
    assert (Ei : sval S i j = XFin x) by (rewrite (sval_w S n w HS) by assumption; unfold x; now destruct (w i j)).
    assert (Ej : sval S j i = XFin x).
    { rewrite (sval_w S n w HS) by assumption. destruct HS as (_ & _ & C). destruct (C i j Hi Hj) as (E & _).
      unfold x. rewrite <- E. now destruct (w i j). }
    rewrite Ei, Ej. destruct (HK i (or_introl eq_refl)) as (A1 & A2 & A3 & A4), (HK j (or_intror eq_refl)) as (B1 & B2 & B3 & B4).
    rewrite !gamcdf_sp by assumption. reflexivity.
  Qed.
End GammaCells.
Lemma lil_oval (v : xr) : oval (if nonzero v then if nonzero (nadd v n0) then Some (nadd v n0) else None else None) = v.
Proof.
  unfold nonzero. destruct v as [| |x|]; cbn; try reflexivity.
  destruct (Req_EM_T x 0) as [->|Hx]; [reflexivity|]. rewrite Rplus_0_r. cbn. destruct (Req_EM_T x 0); [contradiction|reflexivity].
Qed.
Lemma lil_oval' (v : xr) : oval (if nonzero v then if nonzero (nadd n0 v) then Some (nadd n0 v) else None else None) = v.
Proof.
  unfold nonzero. destruct v as [| |x|]; cbn; try reflexivity.
  destruct (Req_EM_T x 0) as [->|Hx]; [reflexivity|]. rewrite Rplus_0_l. cbn. destruct (Req_EM_T x 0); [contradiction|reflexivity].
Qed.
