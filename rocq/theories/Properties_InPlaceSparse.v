(** C169: Mutual Proximity leaves the caller's sparse matrix alone. *)
From Coq Require Import String.
From Coq Require Import ZArith List Arith Lia Bool.
From Verif Require Import Py Num Arr S_Neighbors M_IO M_MPEmpiric M_MPDist M_InPlaceSparse S_InPlaceSparse P_InPlaceSparse.
Import ListNotations.
Local Open Scope sheap_scope.

Lemma bind_ok {V A B} (p : sprog V A) (f : A -> sprog V B) h a h' : p h = (Ok a, h') -> s_bind p f h = f a h'.
Proof. intros E. unfold s_bind. now rewrite E. Qed.

Lemma bind_raise {V A B} (p : sprog V A) (f : A -> sprog V B) h e h' : p h = (Raise e, h') -> s_bind p f h = (Raise e, h').
Proof. intros E. unfold s_bind. now rewrite E. Qed.

Lemma shape_ok n m u : check_distance_matrix_shape (Sparse n m) = Ok u -> n = m.
Proof. unfold check_distance_matrix_shape, guard. cbn. destruct (n =? m) eqn:E; [intros _; now apply Nat.eqb_eq|discriminate]. Qed.

Theorem C169_gaussian :
  forall {V} {N : Num V} vsum vcdf (h : list (smat V)) s S metric sample_size min_nnz test r h',
    nth_error h s = Some S ->
    is_gaussi vsum slice_copy vcdf s metric test h = (r, h') ->
    kept h h' /\ delivers h h' r (gaussi_csr vsum vcdf S metric sample_size min_nnz test).
Proof.
  intros V N vsum vcdf h s S metric sample_size min_nnz test r h' HS H.
  unfold is_gaussi in H. unfold gaussi_csr, gaussi_sparse.
  rewrite (bind_ok _ _ _ _ _ (run_get _ _ _ HS)) in H.
  destruct (check_distance_matrix_shape (Sparse (srow S) (scol S))) as [u|e] eqn:C1.
  2:{ rewrite (bind_raise _ _ h e h) in H by reflexivity. injection H as <- <-. split; [intros a A; auto|reflexivity]. }
  pose proof (shape_ok _ _ _ C1) as Sq.
  rewrite (bind_ok _ _ h u h) in H by reflexivity.
  destruct (check_valid_metric_parameter metric) as [u'|e] eqn:C2.
  2:{ rewrite (bind_raise _ _ h e h) in H by reflexivity. injection H as <- <-. split; [intros a A; auto|reflexivity]. }
  rewrite (bind_ok _ _ h u' h) in H by reflexivity.
  unfold guard in *. destruct (negb (unit_diagonal S)) eqn:C3.
  { rewrite (bind_raise _ _ h ValueError h) in H by reflexivity. injection H as <- <-. split; [intros a A; auto|reflexivity]. }
  rewrite (bind_ok _ _ h tt h) in H by reflexivity.
  set (train := train_rows (srow S) test) in *. set (P := take_rows train S) in *.
  assert (E1 : slice_copy s train h = (Ok (length h), h ++ [P])).
  { unfold slice_copy. rewrite (bind_ok _ _ _ _ _ (run_get _ _ _ HS)). reflexivity. }
  rewrite (bind_ok _ _ _ _ _ E1) in H. clear E1.
  rewrite (bind_ok _ _ (h ++ [P]) P (h ++ [P])) in H.
  2:{ apply run_get. replace (length h) with (length h + 0) by lia. now apply get_end. }
  cbv zeta in H.
  rewrite (bind_ok _ _ (h ++ [P]) tt (h ++ [square P])) in H.
  2:{ unfold s_upd. f_equal. replace (length h) with (length h + 0) by lia. rewrite put_end. reflexivity. }
  rewrite (bind_ok _ _ (h ++ [square P]) (square P) (h ++ [square P])) in H.
  2:{ apply run_get. replace (length h) with (length h + 0) by lia. now apply get_end. }
  set (n := srow S) in *.
  rewrite (bind_ok _ _ (h ++ [square P]) (length h + 1) (h ++ [square P; empty n (scol S)])) in H.
  2:{ unfold s_new. rewrite app_length, <- app_assoc. reflexivity. }
  set (mu := col_mean vsum P) in *. set (E1 := col_mean vsum (square P)) in *.
  set (f := fun i j => lil (if i =? j then half else
     nmul (if neq (sval S i j) n0 then n0 else vcdf (sval S i j) (mu i) (nsqrt (nsub (E1 i) (nmul (mu i) (mu i)))))
          (if neq (sval S j i) n0 then n0 else vcdf (sval S j i) (mu j) (nsqrt (nsub (E1 j) (nmul (mu j) (mu j))))))).
  assert (Ef : forall i j, f i j = lil (if i =? j then half else gis_value vsum vcdf S train i j)).
  { intros i j. unfold f, gis_value, sp_sd, sp_E1, sp_mu, mu, E1, col_mean.
    rewrite !square_col. unfold P. rewrite !take_rows_col, !map_length. reflexivity. }
  set (M1 := fold_left (fun M i => put_row i (f i) M) (seq 0 n) (empty n (scol S))).
  rewrite (bind_ok _ _ (h ++ [square P; empty n (scol S)]) tt (h ++ [square P; M1])) in H.
  2:{ rewrite run_for with (k := 1) (g := fun i M => put_row i (f i) M); [reflexivity|].
      intros i L'. rewrite (bind_ok _ _ _ _ _ (run_get _ _ _ (get_old _ _ _ _ HS))).
      unfold s_upd. rewrite put_end. reflexivity. }
  set (M2 := add_transposed (fun x => x) M1).
  rewrite (bind_ok _ _ (h ++ [square P; M1]) tt (h ++ [square P; M2])) in H.
  2:{ unfold s_upd. rewrite put_end. reflexivity. }
  rewrite (bind_ok _ _ (h ++ [square P; M2]) M2 (h ++ [square P; M2])) in H.
  2:{ apply run_get. now apply get_end. }
  unfold s_new in H. rewrite app_length, <- app_assoc in H. cbn [app length] in H.
  apply pair_equal_spec in H as (<- & <-).
  split; [apply kept_app|]. split; [lia|]. exists M2. split; [now apply get_end|].
  assert (G : forall a b, srow M1 = n /\ scol M1 = scol S /\ stored M1 a b = if (a <? n) && (a <=? b) then f a b else None).
  { intros a b. destruct (fold_put_row f (fun _ => false) (seq 0 n) (empty n (scol S)) a b) as (A & B & C).
    change (fold_left _ _ _) with M1 in A, B, C. rewrite existsb_seq in C. cbn [negb] in C. rewrite andb_true_r in C. auto. }
  destruct (G 0 0) as (G1 & G2 & _). unfold M2. split; [exact G1|]. split; [exact G2|].
  cbn [srow scol add_transposed stored]. rewrite G1, G2. intros i j Hi Hj. rewrite <- Sq in Hj. fold n in Hj.
  destruct (G i j) as (_ & _ & ->). destruct (G j i) as (_ & _ & ->).
  apply Nat.ltb_lt in Hi, Hj. rewrite Hi, Hj. cbn [andb]. rewrite !Ef.
  match goal with |- match ?x with _ => _ end = _ => destruct x eqn:E end; cbn [stored]; now rewrite <- E.
Qed.

Theorem C169_gamma :
  forall {V} {N : Num V} vsum vgam r32 (h : list (smat V)) s S metric min_nnz test r h',
    nth_error h s = Some S ->
    is_gammai vsum slice_copy vgam r32 s metric min_nnz test h = (r, h') ->
    kept h h' /\ delivers h h' r (gammai_csr vsum vgam r32 S metric min_nnz test).
Proof.
  intros V N vsum vgam r32 h s S metric min_nnz test r h' HS H.
  unfold is_gammai in H. unfold gammai_csr, gammai_sparse.
  rewrite (bind_ok _ _ _ _ _ (run_get _ _ _ HS)) in H.
  destruct (check_distance_matrix_shape (Sparse (srow S) (scol S))) as [u|e] eqn:C1.
  2:{ rewrite (bind_raise _ _ h e h) in H by reflexivity. injection H as <- <-. split; [intros a A; auto|reflexivity]. }
  pose proof (shape_ok _ _ _ C1) as Sq.
  rewrite (bind_ok _ _ h u h) in H by reflexivity.
  destruct (check_valid_metric_parameter metric) as [u'|e] eqn:C2.
  2:{ rewrite (bind_raise _ _ h e h) in H by reflexivity. injection H as <- <-. split; [intros a A; auto|reflexivity]. }
  rewrite (bind_ok _ _ h u' h) in H by reflexivity.
  unfold guard in *. destruct (negb (unit_diagonal S)) eqn:C3.
  { rewrite (bind_raise _ _ h ValueError h) in H by reflexivity. injection H as <- <-. split; [intros a A; auto|reflexivity]. }
  rewrite (bind_ok _ _ h tt h) in H by reflexivity.
  set (train := train_rows (srow S) test) in *. set (P := take_rows train S) in *.
  assert (E1 : slice_copy s train h = (Ok (length h), h ++ [P])).
  { unfold slice_copy. rewrite (bind_ok _ _ _ _ _ (run_get _ _ _ HS)). reflexivity. }
  rewrite (bind_ok _ _ _ _ _ E1) in H. clear E1.
  rewrite (bind_ok _ _ (h ++ [P]) P (h ++ [P])) in H.
  2:{ apply run_get. replace (length h) with (length h + 0) by lia. now apply get_end. }
  cbv zeta in H.
  rewrite (bind_ok _ _ (h ++ [P]) (length h + 1) (h ++ [P; P])) in H.
  2:{ unfold s_new. rewrite app_length, <- app_assoc. reflexivity. }
  rewrite (bind_ok _ _ (h ++ [P; P]) tt (h ++ [P; square P])) in H.
  2:{ unfold s_upd. rewrite put_end. reflexivity. }
  rewrite (bind_ok _ _ (h ++ [P; square P]) (square P) (h ++ [P; square P])) in H.
  2:{ apply run_get. now apply get_end. }
  set (n := srow S) in *.
  rewrite (bind_ok _ _ (h ++ [P; square P]) (length h + 2) (h ++ [P; square P; empty n (scol S)])) in H.
  2:{ unfold s_new. rewrite app_length, <- app_assoc. reflexivity. }
  set (mu := col_mean vsum P) in *. set (E1 := col_mean vsum (square P)) in *.
  set (n_x := fun j => (Z.of_nat (length (whole_col (square P) j)) - 1)%Z).
  set (va := fun j => nmul (ndiv (nofZ (n_x j)) (nofZ (n_x j - 1))) (nsub (E1 j) (nmul (mu j) (mu j)))).
  set (Af := fun j => if nlt (ndiv (nmul (mu j) (mu j)) (va j)) n0 then nnan else ndiv (nmul (mu j) (mu j)) (va j)).
  set (Bf := fun j => if nle (ndiv (va j) (mu j)) n0 then nnan else ndiv (va j) (mu j)).
  set (f := fun i j => lil (r32 (if i =? j then half else
     nmul (gamcdf vgam (sval S i j) (Af i) (Bf i)) (gamcdf vgam (sval S j i) (Af j) (Bf j))))).
  assert (Emu : forall j, mu j = sp_mu vsum S train j).
  { intros j. unfold mu, sp_mu, col_mean, P. now rewrite take_rows_col. }
  assert (EE : forall j, E1 j = sp_E1 vsum S train j).
  { intros j. unfold E1, sp_E1, col_mean. rewrite square_col. unfold P. now rewrite take_rows_col, map_length. }
  assert (Eva : forall j, va j = sp_va vsum S train j).
  { intros j. unfold va, sp_va, n_x. rewrite EE, Emu, square_col, map_length. unfold P. now rewrite take_rows_col. }
  assert (Ef : forall i j, f i j = lil (r32 (if i =? j then half else gas_value vsum vgam S train i j))).
  { intros i j. unfold f, gas_value, Af, Bf, sp_A, sp_B. now rewrite !Eva, !Emu. }
  set (poor := fun i => row_nnz S i <=? min_nnz).
  set (M1 := fold_left (fun M i => if poor i then M else put_row i (f i) M) (seq 0 n) (empty n (scol S))).
  rewrite (bind_ok _ _ (h ++ [P; square P; empty n (scol S)]) tt (h ++ [P; square P; M1])) in H.
  2:{ rewrite run_for with (k := 2) (g := fun i M => if poor i then M else put_row i (f i) M); [reflexivity|].
      intros i L'. rewrite (bind_ok _ _ _ _ _ (run_get _ _ _ (get_old _ _ _ _ HS))). fold (poor i).
      destruct (poor i); [unfold s_ret; now rewrite put_same|]. unfold s_upd. rewrite put_end. reflexivity. }
  set (M2 := add_transposed r32 M1).
  rewrite (bind_ok _ _ (h ++ [P; square P; M1]) tt (h ++ [P; square P; M2])) in H.
  2:{ unfold s_upd. rewrite put_end. reflexivity. }
  set (w := fun i j => lil (r32 (sval S i j))).
  set (M3 := fold_left (fun M i => if poor i then put_whole_row i (w i) M else M) (seq 0 n) M2).
  rewrite (bind_ok _ _ (h ++ [P; square P; M2]) tt (h ++ [P; square P; M3])) in H.
  2:{ rewrite run_for with (k := 2) (g := fun i M => if poor i then put_whole_row i (w i) M else M); [reflexivity|].
      intros i L'. rewrite (bind_ok _ _ _ _ _ (run_get _ _ _ (get_old _ _ _ _ HS))). fold (poor i).
      destruct (poor i); [|unfold s_ret; now rewrite put_same]. unfold s_upd. rewrite put_end. reflexivity. }
  rewrite (bind_ok _ _ (h ++ [P; square P; M3]) M3 (h ++ [P; square P; M3])) in H.
  2:{ apply run_get. now apply get_end. }
  unfold s_new in H. rewrite app_length, <- app_assoc in H. cbn [app length] in H.
  apply pair_equal_spec in H as (<- & <-).
  split; [apply kept_app|]. split; [lia|]. exists M3. split; [now apply get_end|].
  assert (G : forall a b, srow M1 = n /\ scol M1 = scol S /\
    stored M1 a b = if (a <? n) && negb (poor a) && (a <=? b) then f a b else None).
  { intros a b. destruct (fold_put_row f poor (seq 0 n) (empty n (scol S)) a b) as (A & B & C).
    change (fold_left _ _ _) with M1 in A, B, C. rewrite existsb_seq in C. auto. }
  destruct (G 0 0) as (G1 & G2 & _).
  assert (G3 : forall a b, srow M3 = n /\ scol M3 = scol S /\
    stored M3 a b = if (a <? n) && poor a then w a b else stored M2 a b).
  { intros a b. destruct (fold_whole_row w poor (seq 0 n) M2 a b) as (A & B & C).
    change (fold_left _ _ _) with M3 in A, B, C. rewrite existsb_seq in C. cbn [M2 add_transposed srow scol] in A, B.
    rewrite G1 in A. rewrite G2 in B. auto. }
  destruct (G3 0 0) as (G4 & G5 & _). split; [exact G4|]. split; [exact G5|].
  rewrite G4, G5. intros i j Hi Hj. rewrite <- Sq in Hj. fold n in Hj.
  destruct (G3 i j) as (_ & _ & ->). apply Nat.ltb_lt in Hi, Hj. rewrite Hi. cbn [andb sp_finish stored]. fold (poor i).
  destruct (poor i) eqn:Pi; [reflexivity|]. cbn [M2 add_transposed stored].
  destruct (G i j) as (_ & _ & ->). destruct (G j i) as (_ & _ & ->). rewrite Hi, Hj, Pi. fold (poor j).
  cbn [andb negb]. rewrite !Ef, (Nat.eqb_sym j i), (andb_comm (negb (poor j))), andb_true_r. reflexivity.
Qed.

Theorem C169_pairs :
  forall {V} {N : Num V} (h : list (smat V)) s S min_nnz tasks r h',
    nth_error h s = Some S ->
    is_pairs s min_nnz tasks h = (r, h') ->
    kept h h' /\ r = Ok (map (fun ij => mpes_sec_dist S min_nnz (fst ij) (snd ij)) tasks).
Proof.
  intros V N h s S min_nnz tasks. revert h. induction tasks as [|(i, j) l IH]; intros h r h' HS H; cbn [is_pairs] in H.
  - unfold s_ret in H. apply pair_equal_spec in H as (<- & <-). split; [intros a A; auto|reflexivity].
  - assert (E : exists h1, is_pair s min_nnz i j h = (Ok (mpes_sec_dist S min_nnz i j), h1) /\ kept h h1).
    { unfold is_pair. rewrite (bind_ok _ _ _ _ _ (run_get _ _ _ HS)).
      set (Ri := SMat 1 (scol S) (fun _ x => stored S i x)). set (Rj := SMat 1 (scol S) (fun _ x => stored S j x)).
      rewrite (bind_ok _ _ h (length h + 0) (h ++ [Ri])).
      2:{ unfold s_getrow. rewrite (bind_ok _ _ _ _ _ (run_get _ _ _ HS)). unfold s_new. now rewrite Nat.add_0_r. }
      rewrite (bind_ok _ _ _ (length h + 1) (h ++ [Ri; Rj])).
      2:{ unfold s_getrow. rewrite (bind_ok _ _ _ _ _ (run_get _ _ _ (get_old _ _ _ _ HS))). unfold s_new.
          rewrite app_length, <- app_assoc. reflexivity. }
      rewrite (bind_ok _ _ _ Ri (h ++ [Ri; Rj])) by (apply run_get; now apply get_end).
      rewrite (bind_ok _ _ _ Rj (h ++ [Ri; Rj])) by (apply run_get; now apply get_end).
      change (row_nnz Ri 0) with (row_nnz S i). change (row_nnz Rj 0) with (row_nnz S j). unfold mpes_sec_dist.
      destruct ((row_nnz S i <=? min_nnz) || (row_nnz S j <=? min_nnz)).
      - eexists. split; [reflexivity|apply kept_app].
      - rewrite (bind_ok _ _ _ tt (h ++ [cut (sval S i j) Ri; Rj])) by (unfold s_upd; now rewrite put_end).
        rewrite (bind_ok _ _ _ tt (h ++ [cut (sval S i j) Ri; cut (sval S i j) Rj])) by (unfold s_upd; now rewrite put_end).
        rewrite (bind_ok _ _ _ _ _ (run_get _ (length h + 0) (cut (sval S i j) Ri) (get_end h [cut (sval S i j) Ri; cut (sval S i j) Rj] 0 _ eq_refl))).
        rewrite (bind_ok _ _ _ _ _ (run_get _ (length h + 1) (cut (sval S i j) Rj) (get_end h [cut (sval S i j) Ri; cut (sval S i j) Rj] 1 _ eq_refl))).
        eexists. split; [reflexivity|apply kept_app]. }
    destruct E as (h1 & E & K). rewrite (bind_ok _ _ _ _ _ E) in H.
    destruct (is_pairs s min_nnz l h1) as (r2, h2) eqn:E2.
    destruct (IH h1 r2 h2 (K _ _ HS) E2) as (K2 & ->).
    rewrite (bind_ok _ _ _ _ _ E2) in H. unfold s_ret in H. apply pair_equal_spec in H as (<- & <-).
    split; [intros a A Ha; apply K2, K, Ha|reflexivity].
Qed.

(** If slicing gave the matrix itself, [X.data **= 2] would square the caller's
    similarities. *)
Theorem C169_copy_matters :
  forall {V} {N : Num V} vsum vcdf (h : list (smat V)) s S metric test r h',
    nth_error h s = Some S -> srow S = scol S -> metric = "similarity"%string \/ metric = "distance"%string -> unit_diagonal S = true ->
    is_gaussi vsum slice_view vcdf s metric test h = (r, h') ->
    nth_error h' s = Some (square S).
Proof.
  intros V N vsum vcdf h s S metric test r h' HS Sq M U H.
  unfold is_gaussi in H. rewrite (bind_ok _ _ _ _ _ (run_get _ _ _ HS)) in H.
  rewrite (bind_ok _ _ h tt h) in H.
  2:{ unfold s_lift, check_distance_matrix_shape, guard. cbn. now rewrite Sq, Nat.eqb_refl. }
  rewrite (bind_ok _ _ h tt h) in H by (destruct M as [-> | ->]; reflexivity).
  rewrite (bind_ok _ _ h tt h) in H by (rewrite U; reflexivity).
  rewrite (bind_ok _ _ h s h) in H by reflexivity.
  rewrite (bind_ok _ _ _ _ _ (run_get _ _ _ HS)) in H. cbv zeta in H.
  rewrite (bind_ok _ _ h tt (s_put h s square)) in H by reflexivity.
  assert (HS' : nth_error (s_put h s square) s = Some (square S)).
  { clear H. revert s HS. induction h as [|A h IH]; intros [|s] HS; cbn in *; try discriminate; [congruence|auto]. }
  set (h1 := s_put h s square) in *.
  rewrite (bind_ok _ _ _ _ _ (run_get _ _ _ HS')) in H.
  rewrite (bind_ok _ _ h1 (length h1) (h1 ++ [empty (srow S) (scol S)])) in H by reflexivity.
  match type of H with s_bind (s_for ?l ?b) ?k _ = _ =>
    assert (B : forall i L, exists L', b i (h1 ++ [L]) = (Ok tt, h1 ++ [L']));
    [|assert (E : exists L, s_for l b (h1 ++ [empty (srow S) (scol S)]) = (Ok tt, h1 ++ [L]))] end.
  { intros i L. rewrite (bind_ok _ _ _ _ _ (run_get _ _ _ (get_old _ _ _ _ HS'))). unfold s_upd.
    replace (length h1) with (length h1 + 0) by lia. rewrite put_end. eexists. reflexivity. }
  { clear H. generalize (empty (V := V) (srow S) (scol S)) as L. induction (seq 0 (srow S)) as [|i l IH]; intros L; [now exists L|].
    destruct (B i L) as (L1 & B1). destruct (IH L1) as (L2 & B2). exists L2. cbn [s_for]. rewrite (bind_ok _ _ _ _ _ B1). exact B2. }
  destruct E as (L & E). rewrite (bind_ok _ _ _ _ _ E) in H.
  rewrite (bind_ok _ _ (h1 ++ [L]) tt (h1 ++ [add_transposed (fun x => x) L])) in H.
  2:{ unfold s_upd. replace (length h1) with (length h1 + 0) by lia. now rewrite put_end. }
  rewrite (bind_ok _ _ _ (add_transposed (fun x => x) L) (h1 ++ [add_transposed (fun x => x) L])) in H.
  2:{ apply run_get. replace (length h1) with (length h1 + 0) by lia. now apply get_end. }
  unfold s_new in H. apply pair_equal_spec in H as (_ & <-).
  now apply get_old, get_old.
Qed.

(** no entry where there was none, whatever the values of the distribution function *)
Lemma gaussi_missing {V} {N : Num V} vsum vcdf (S : smat V) metric ss mn test M i j :
  neq n0 n0 = true -> neq (nmul n0 n0) n0 = true ->
  gaussi_csr vsum vcdf S metric ss mn test = Ok M -> i <> j ->
  stored S i j = None -> stored S j i = None -> stored M i j = None.
Proof.
  intros Z1 Z2 H Hne A B. unfold gaussi_csr, gaussi_sparse in H.
  destruct (check_distance_matrix_shape _) as [u|]; [|discriminate H]. destruct (check_valid_metric_parameter _) as [u2|]; [|discriminate H].
  cbn [bind] in H. unfold guard in H. destruct (negb (unit_diagonal S)); [discriminate H|]. cbn [bind] in H. injection H as <-.
  cbn [stored].
  assert (G : forall a b, (a = i /\ b = j) \/ (a = j /\ b = i) ->
    lil (if a =? b then half else gis_value vsum vcdf S (train_rows (srow S) test) a b) = None).
  { intros a b Hab. assert (E : a <> b) by (destruct Hab as [(-> & ->)|(-> & ->)]; congruence). apply Nat.eqb_neq in E. rewrite E.
    assert (Sa : sval S a b = n0) by (destruct Hab as [(-> & ->)|(-> & ->)]; unfold sval; now rewrite ?A, ?B).
    assert (Sb : sval S b a = n0) by (destruct Hab as [(-> & ->)|(-> & ->)]; unfold sval; now rewrite ?A, ?B).
    unfold gis_value. rewrite Sa, Sb, Z1. unfold lil, nonzero. now rewrite Z2. }
  rewrite (G i j), (G j i) by auto. destruct (i <=? j), (j <=? i); reflexivity.
Qed.

Theorem C90_missing_stay_missing :
  (forall vsum vcdf (S : smat f64) metric ss mn test M i j,
     gaussi_csr vsum vcdf S metric ss mn test = Ok M -> i <> j ->
     stored S i j = None -> stored S j i = None -> stored M i j = None) /\
  (forall vsum vcdf (S : smat xr) metric ss mn test M i j,
     gaussi_csr vsum vcdf S metric ss mn test = Ok M -> i <> j ->
     stored S i j = None -> stored S j i = None -> stored M i j = None).
Proof.
  split; intros; eapply gaussi_missing; try eassumption; [vm_compute; reflexivity..| |]; xr_tac.
Qed.

(** a concrete matrix: three similar objects, held among other matrices *)
Definition e3 : smat f64 := SMat 3 3 (fun i j =>
  if i =? j then Some n1 else if (i + j =? 2) then None else Some (ndiv n1 (nofnat (i + j + 1)))).
Definition fsum (l : list f64) : f64 := fold_left nadd l n0.
Definition fcdf (x m s : f64) : f64 := if nle x m then ndiv n1 (nofZ 4) else ndiv (nofZ 3) (nofZ 4).

Example C169_case :
  let h := [e3; empty 1 1; e3] in
  (* hypotheses of the theorems *)
  nth_error h 2 = Some e3 /\ srow e3 = scol e3 /\ unit_diagonal e3 = true /\
  (* a successful call whose result stores something *)
  (match is_gaussi fsum slice_copy fcdf 2 "similarity" None h with
   | (Ok a, h') => (a =? 5) && match nth_error h' a with
                                | Some M => nlt n0 (sval M 0 1) && (if stored M 0 2 then false else true)
                                | None => false end
   | _ => false end) = true /\
  (* a view would have changed the similarity of objects 0 and 1 *)
  (match is_gaussi fsum slice_view fcdf 2 "similarity" None h with
   | (Ok a, h') => match nth_error h' 2 with Some M => nlt (sval M 0 1) (sval e3 0 1) | None => false end
   | _ => false end) = true /\
  (match is_pairs 2 0 [(0, 0); (0, 1)] h with
   | (Ok [v; w], h') => neq v n1 && nlt w n1 | _ => false end) = true.
Proof. cbv zeta. split; [reflexivity|]. split; [reflexivity|]. repeat split; vm_compute; reflexivity. Qed.

Print Assumptions C169_gaussian.
Print Assumptions C169_gamma.
Print Assumptions C169_pairs.
Print Assumptions C169_copy_matters.
Print Assumptions C90_missing_stay_missing.
