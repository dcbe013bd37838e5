(** C101: correlation matrices and rounding. *)
From Coq Require Import Reals Lra Lia String ZArith List Arith Bool.
From Flocq Require Import Core.
From Verif Require Import Base Num Sums Feat_Ops Feat_Model Feat_Proofs.
From Verif Require Import Sim_Model Dist_Model Dist_Spec Rnd_Model Rnd_Spec Rnd_Proofs Rnd_Exact Rnd_Float Rnd_Props.
Import ListNotations.
Open Scope R_scope.

Lemma is_close_self : forall x, x <> NaN -> isclose x x = true.
Proof.
  intros [u| | |] Hx; unfold isclose; try reflexivity; [|congruence]. apply rleb_true. replace (u - u) with 0 by ring. rewrite Rabs_R0. generalize (Rabs_pos u). lra.
Qed.
(** A column holding 0 and 2 has variance 2, and in double precision 2 / sqrt 2 / sqrt 2 is 1 - 2^-53, so the matrix of np.corrcoef has a
    diagonal entry below 1 and all three conversions refuse it; without rounding the entry is 1. *)
Theorem C101_corrcoef_refused : forall a j, nrow a = 2%nat -> (j < ncol a)%nat -> at2 a 0 j = Fin 0 -> at2 a 1 j = Fin 2 ->
  at2 (r_corrcoef double a) j j = Fin (1 - bpow radix2 (-53)) /\
  (forall method, r_convert double method (OArr2 (r_corrcoef double a)) = Raise AssertionError) /\
  at2 (r_corrcoef exact a) j j = Fin 1.
Proof.
  intros a j Hr Hj H0 H1. assert (C : col a j = [Fin 0; Fin 2]) by (unfold col; rewrite Hr; cbn; rewrite H0, H1; reflexivity).
  assert (D : at2 (r_corrcoef double a) j j = Fin (1 - bpow radix2 (-53))).
  { assert (I0 : binary64 0 = 0) by (apply (r_0 _ binary64_rounding)). assert (I1 : binary64 1 = 1) by apply (r_1 _ binary64_rounding). assert (I2 : binary64 2 = 2) by apply (r_2 _ binary64_rounding).
    assert (In1 : binary64 (-1) = -1) by (apply held_z; reflexivity).
    assert (Cv : r_cov double (col a j) (col a j) = Fin 2).
    { rewrite C. unfold r_cov, r_sum. cbn [combine map fold_left length]. unfold fmul, fdiv, fsub, fadd, nofnat. cbn [nadd fl rnd double Nat.sub INR fst snd].
      replace (0 + 0) with 0 by lra. rewrite !I0. replace (0 + 2) with 2 by lra. rewrite !I2. rewrite !ndiv_fin by lra. cbn [fl rnd double].
      replace (2 / (1 + 1)) with 1 by lra. rewrite !I1. rewrite !nsub_fin. cbn [fl rnd double]. replace (0 - 1) with (-1) by lra. rewrite !In1. replace (2 - 1) with 1 by lra. rewrite !I1.
      cbn [nmul fl rnd double nadd]. replace (-1 * -1) with 1 by lra. replace (1 * 1) with 1 by lra. rewrite !I1. cbn [nadd fl rnd double]. replace (0 + 1) with 1 by lra. rewrite !I1. cbn [nadd fl rnd double].
      replace (1 + 1) with 2 by lra. rewrite !I2. replace (1 / 1) with 1 by lra. rewrite !I1. cbn [nmul fl rnd double]. replace (2 * 1) with 2 by lra. rewrite !I2. reflexivity. }
    unfold r_corrcoef. cbn [at2]. rewrite Cv. unfold fsqrt. rewrite nsqrt_fin by lra. cbn [fl rnd double]. rewrite round_sqrt2. unfold fdiv.
    assert (P2 : 0 < sq2) by (unfold sq2; apply Rmult_lt_0_compat; [lra|apply bpow_gt_0]).
    rewrite ndiv_fin by lra. cbn [fl rnd double]. rewrite round_div1. rewrite ndiv_fin by lra. cbn [fl rnd double]. rewrite round_div2.
    assert (E : bpow radix2 (-53) = / 9007199254740992) by (cbn; lra). rewrite E. rewrite clip_fin by lra. f_equal. rewrite Rmin_right, Rmax_right by lra. lra. }
  split; [exact D|]. split.
  - intros method. unfold r_convert. assert (V : validate_corr (OArr2 (r_corrcoef double a)) = Raise AssertionError); [|rewrite V; reflexivity].
    unfold validate_corr. destruct (Nat.eqb _ _); [|reflexivity]. cbn [negb]. destruct (close_to_transpose _); [|reflexivity]. cbn [negb].
    assert (F : all_upto (nrow (r_corrcoef double a)) (fun i => neqb (at2 (r_corrcoef double a) i i) (Fin 1)) = false); [|rewrite F; reflexivity].
    unfold all_upto. destruct (forallb _ _) eqn:F; [exfalso|reflexivity]. rewrite forallb_forall in F. specialize (F j). rewrite D in F. cbn [neqb] in F.
    assert (In j (seq 0 (nrow (r_corrcoef double a)))) by (apply in_seq; cbn [nrow r_corrcoef]; lia). specialize (F H). apply reqb_true in F. generalize (bpow_gt_0 radix2 (-53)). lra.
  - assert (Cv : r_cov exact (col a j) (col a j) = Fin 2).
    { rewrite C. unfold r_cov, r_sum. cbn [combine map fold_left length]. unfold fmul, fdiv, fsub, fadd, nofnat. cbn [nadd fl rnd exact Nat.sub INR fst snd].
      rewrite !ndiv_fin by lra. cbn [fl rnd exact]. rewrite !nsub_fin. cbn [fl rnd exact nmul nadd]. f_equal. field. }
    unfold r_corrcoef. cbn [at2]. rewrite Cv. ex. rewrite nsqrt_fin by lra. assert (P : 0 < sqrt 2) by (apply sqrt_lt_R0; lra). rewrite !ndiv_fin by lra.
    replace (2 / sqrt 2 / sqrt 2) with 1; [rewrite clip_fin by lra; rewrite Rmin_left, Rmax_right by lra; reflexivity|]. unfold Rdiv. rewrite Rmult_assoc, <- Rinv_mult, sqrt_sqrt by lra. lra.
Qed.
Print Assumptions C101_corrcoef_refused.
Example C101_corrcoef_case : r_convert double "angular" (OArr2 (r_corrcoef double (mkArr 2 2 (fun i j => if Nat.eqb i 0 then Fin 0 else if Nat.eqb j 0 then Fin 2 else Fin 5)))) = Raise AssertionError.
Proof. apply (C101_corrcoef_refused (mkArr 2 2 (fun i j => if Nat.eqb i 0 then Fin 0 else if Nat.eqb j 0 then Fin 2 else Fin 5)) 0); try reflexivity. cbn. lia. Qed.

(** pandas divides by the square root of the product instead: in double precision a column's correlation with itself is exactly 1 unless
    its squared deviations underflow, and the negated column's is exactly -1. *)
Lemma w_diag : forall M l, (forall p, In p l -> fst p = snd p) -> let s := w_run M l in w_mx s = w_my s /\ w_sx s = w_sy s /\ w_c s = w_sx s.
Proof.
  intros M l. unfold w_run. induction l as [|[x y] l IH] using rev_ind; intros Hl; [cbn; auto|]. rewrite fold_left_app. cbn zeta in *. cbn [fold_left].
  destruct IH as (E1 & E2 & E3); [intros p Hp; apply Hl; apply in_or_app; auto|]. assert (E : x = y) by (apply (Hl (x, y)); apply in_or_app; right; left; auto). subst y.
  set (s := fold_left (w_step M) l _) in *. clearbody s. unfold w_step. cbn [w_n w_mx w_my w_sx w_sy w_c fst snd]. rewrite <- E1, <- E2, E3. auto.
Qed.
Lemma w_anti : forall M, rounding (rnd M) -> forall l, (forall p, In p l -> snd p = - fst p) -> let s := w_run M l in w_my s = - w_mx s /\ w_sy s = w_sx s /\ w_c s = - w_sx s.
Proof.
  intros M H l. unfold w_run. induction l as [|[x y] l IH] using rev_ind; intros Hl; [cbn; repeat split; lra|]. rewrite fold_left_app. cbn zeta in *. cbn [fold_left].
  destruct IH as (E1 & E2 & E3); [intros p Hp; apply Hl; apply in_or_app; auto|]. assert (E : y = - x) by (apply (Hl (x, y)); apply in_or_app; right; left; auto). subst y.
  set (s := fold_left (w_step M) l _) in *. assert (O := r_opp _ H). unfold w_step. cbn [w_n w_mx w_my w_sx w_sy w_c fst snd]. rewrite E1, E2, E3.
  set (q := rnd M (1 / (w_n s + 1))). set (dx := rnd M (x - w_mx s)).
  assert (D : rnd M (- x - - w_mx s) = - dx) by (unfold dx; rewrite <- (O (x - w_mx s)); f_equal; ring). rewrite D.
  assert (T : rnd M (q * - dx) = - rnd M (q * dx)) by (rewrite <- (O (q * dx)); f_equal; ring). rewrite T.
  set (mx := rnd M (w_mx s + rnd M (q * dx))). assert (U : rnd M (- w_mx s + - rnd M (q * dx)) = - mx) by (unfold mx; rewrite <- (O (w_mx s + rnd M (q * dx))); f_equal; ring). rewrite U.
  set (e := rnd M (x - mx)). assert (V : rnd M (- x - - mx) = - e) by (unfold e; rewrite <- (O (x - mx)); f_equal; ring). rewrite V.
  split; [reflexivity|]. split; [f_equal; f_equal; f_equal; ring|]. assert (W : rnd M (e * - dx) = - rnd M (e * dx)) by (rewrite <- (O (e * dx)); f_equal; ring). rewrite W, <- (O (w_sx s + rnd M (e * dx))). f_equal. ring.
Qed.
Lemma w_held : forall M, rounding (rnd M) -> forall l, held (rnd M) (w_sx (w_run M l)).
Proof.
  intros M H l. unfold w_run. destruct l as [|p l] using rev_ind; [apply held_0; auto|]. rewrite fold_left_app. cbn [fold_left w_step w_sx]. apply (r_idem _ H).
Qed.
(** the squared deviations of a column, as pandas accumulates them *)
Definition deviations (x : list R) : R := w_sx (w_run double (combine x x)).
Theorem C101_self_correlation : forall x, bpow radix2 (-500) <= deviations x ->
  r_pearson double x x = Fin 1 /\ r_pearson double x (map Ropp x) = Fin (-1) /\ r_pearson double (map Ropp x) x = Fin (-1).
Proof.
  intros x Hs. assert (Hh := w_held double binary64_rounding (combine x x)). fold (deviations x) in Hh. assert (P : 0 < deviations x) by (generalize (bpow_gt_0 radix2 (-500)); lra).
  assert (Sq : binary64 (sqrt (binary64 (deviations x * deviations x))) = deviations x) by (apply sqrt_of_square; auto).
  assert (I1 : binary64 1 = 1) by apply (r_1 _ binary64_rounding). assert (In1 : binary64 (-1) = -1) by (apply held_z; reflexivity).
  assert (Sx : forall l, map fst l = x -> w_sx (w_run double l) = deviations x).
  { unfold deviations. assert (G : forall (l l' : list (R * R)) s s', map fst l = map fst l' -> w_n s = w_n s' -> w_mx s = w_mx s' -> w_sx s = w_sx s' -> w_sx (fold_left (w_step double) l s) = w_sx (fold_left (w_step double) l' s')).
    { induction l as [|p l IH]; intros [|p' l'] s s' El En Em Es; try discriminate; [exact Es|]. injection El as Ep El. cbn [fold_left]. apply IH; auto; unfold w_step; cbn [w_n w_mx w_sx]; rewrite ?Ep, ?En, ?Em, ?Es; reflexivity. }
    intros l El. apply G; auto. rewrite El, combine_fst; auto. }
  assert (Cl : forall c, c = 1 \/ c = -1 -> nclip (Fin (-1)) (Fin 1) (Fin c) = Fin c).
  { intros c Hc. rewrite clip_fin by lra. f_equal. rewrite Rmin_right, Rmax_right; lra. }
  assert (Q : reqb (deviations x) 0 = false) by (apply reqb_false; lra).
  split; [|split]; unfold r_pearson.
  - destruct (w_diag double (combine x x)) as (_ & E2 & E3). { intros p Hp. clear - Hp. induction x as [|a x IH]; [contradiction|]. destruct Hp as [<-|Hp]; auto. }
    rewrite <- E2, E3. fold (deviations x). cbn [rnd double]. rewrite Sq, Q. replace (deviations x / deviations x) with 1 by (field; lra). rewrite I1. apply Cl; auto.
  - destruct (w_anti double binary64_rounding (combine x (map Ropp x))) as (_ & E2 & E3). { intros p Hp. clear - Hp. induction x as [|a x IH]; [contradiction|]. destruct Hp as [<-|Hp]; auto. }
    rewrite E2, E3, Sx by (apply combine_fst; rewrite map_length; auto). cbn [rnd double]. rewrite Sq, Q. replace (- deviations x / deviations x) with (-1) by (field; lra). rewrite In1. apply Cl; auto.
  - destruct (w_anti double binary64_rounding (combine (map Ropp x) x)) as (_ & E2 & E3). { intros p Hp. clear - Hp. induction x as [|a x IH]; [contradiction|]. destruct Hp as [<-|Hp]; cbn [fst snd]; auto. lra. }
    assert (Sx' : w_sx (w_run double (combine (map Ropp x) x)) = deviations x).
    { rewrite <- E2. unfold deviations. assert (G : forall (l l' : list (R * R)) s s', map snd l = map fst l' -> w_n s = w_n s' -> w_my s = w_mx s' -> w_sy s = w_sx s' -> w_sy (fold_left (w_step double) l s) = w_sx (fold_left (w_step double) l' s')).
      { induction l as [|p l IH]; intros [|p' l'] s s' El En Em Es; try discriminate; [exact Es|]. injection El as Ep El. cbn [fold_left]. apply IH; auto; unfold w_step; cbn [w_n w_my w_sy w_mx w_sx]; rewrite ?Ep, ?En, ?Em, ?Es; reflexivity. }
      apply G; auto. rewrite combine_snd, combine_fst; auto. rewrite map_length; auto. }
    rewrite E2, E3, Sx'. cbn [rnd double]. rewrite Sq, Q. replace (- deviations x / deviations x) with (-1) by (field; lra). rewrite In1. apply Cl; auto.
Qed.
Print Assumptions C101_self_correlation.
Example C101_self_correlation_case : bpow radix2 (-500) <= deviations [0; 2].
Proof.
  assert (I0 : binary64 0 = 0) by (apply (r_0 _ binary64_rounding)). assert (I1 : binary64 1 = 1) by apply (r_1 _ binary64_rounding). assert (I2 : binary64 2 = 2) by apply (r_2 _ binary64_rounding).
  assert (Ih : binary64 (/ 2) = / 2) by (replace (/ 2) with (IZR 1 * bpow radix2 (-1)) by (cbn; lra); apply held_ze; [reflexivity|lia]).
  assert (E : deviations [0; 2] = 2).
  { unfold deviations, w_run. cbn [combine fold_left]. unfold w_step. cbn [w_n w_mx w_my w_sx w_sy w_c fst snd rnd double].
    replace (0 + 1) with 1 by lra. replace (0 - 0) with 0 by lra. rewrite !I0. replace (1 / 1) with 1 by lra. rewrite !I1. replace (1 * 0) with 0 by lra. rewrite !I0. replace (0 + 0) with 0 by lra. rewrite !I0.
    replace (0 - 0) with 0 by lra. rewrite !I0. replace (0 * 0) with 0 by lra. rewrite !I0. replace (0 + 0) with 0 by lra. rewrite !I0. replace (2 - 0) with 2 by lra. rewrite !I2. replace (1 / (1 + 1)) with (/ 2) by lra. rewrite !Ih.
    replace (/ 2 * 2) with 1 by lra. rewrite !I1. replace (0 + 1) with 1 by lra. rewrite !I1. replace (2 - 1) with 1 by lra. rewrite !I1. replace (1 * 2) with 2 by lra. rewrite !I2. replace (0 + 2) with 2 by lra. exact I2. }
  rewrite E. apply Rle_trans with (bpow radix2 0); [apply bpow_le; lia|cbn; lra].
Qed.

(** Therefore get_corr_distance_matrix on an array does not fail that way: if the present values of every column vary enough not to underflow
    and every two columns have a correlation, it returns a matrix with zero diagonal and entries in [0, 1]; on a DataFrame, whose diagonal is not
    overwritten, the diagonal is exactly 0 as well. *)
Definition present_values (l : list num) : list R := map fval (filter is_fin l).
Lemma complete_diag : forall l, map fval (map fst (complete l l)) = present_values l /\ map fval (map snd (complete l l)) = present_values l /\ length (complete l l) = length (present_values l).
Proof.
  unfold complete, present_values. induction l as [|x l [E1 [E2 E3]]]; [auto|]. cbn [combine filter fst snd]. rewrite andb_diag. destruct (is_fin x); auto. cbn [map length fst snd]. rewrite E1, E2, E3. auto.
Qed.
Lemma self_1 : forall l, bpow radix2 (-500) <= deviations (present_values l) -> r_pandas_pearson double l l = Fin 1.
Proof.
  intros l Hd. unfold r_pandas_pearson. destruct (complete_diag l) as (E1 & E2 & E3). rewrite E1, E2, E3.
  destruct (Nat.ltb_spec (length (present_values l)) 1) as [L|L]; [|exact (proj1 (C101_self_correlation _ Hd))].
  destruct (present_values l); [|cbn in L; lia]. exfalso. cbn [deviations w_run combine fold_left w_sx] in Hd. unfold deviations, w_run in Hd. cbn [combine fold_left w_sx] in Hd. generalize (bpow_gt_0 radix2 (-500)). lra.
Qed.
Theorem C101_distance_matrix : forall a method, known_method method -> (2 <= ncol a)%nat ->
  (forall j, (j < ncol a)%nat -> bpow radix2 (-500) <= deviations (present_values (col a j))) ->
  (exists b, forall names, r_corr_distance_matrix double (OFrame names a) method = Ok (OFrame names b) /\ nrow b = ncol a /\ ncol b = ncol a /\
     (forall j, (j < ncol a)%nat -> at2 b j j = Fin 0) /\ forall i j, within 0 1 (at2 b i j) /\ at2 b i j = at2 b j i) /\
  ((forall i j, (i < ncol a)%nat -> (j < ncol a)%nat -> at2 (r_pearson_matrix double a) i j <> NaN) ->
   exists b, r_corr_distance_matrix double (OArr2 a) method = Ok (OArr2 b) /\ nrow b = ncol a /\ ncol b = ncol a /\
     (forall j, at2 b j j = Fin 0) /\ forall i j, within 0 1 (at2 b i j) /\ at2 b i j = at2 b j i).
Proof.
  intros a method Hm Hn Hd. set (c := r_pearson_matrix double a).
  assert (K : existsb (String.eqb method) dist_methods = true) by (destruct Hm as [->|[->| ->]]; reflexivity).
  assert (K' : existsb (String.eqb method) ["angular"; "abs_angular"; "squared_angular"]%string = true) by exact K.
  assert (N2 : Nat.ltb (ncol a) 2 = false) by (apply Nat.ltb_ge; auto).
  assert (Dg : forall j, (j < ncol a)%nat -> at2 c j j = Fin 1). { intros j Hj. unfold c, r_pearson_matrix. cbn [at2]. rewrite Nat.max_id, Nat.min_id. apply self_1; auto. }
  assert (Sy : forall i j, at2 c i j = at2 c j i). { intros i j. unfold c, r_pearson_matrix. cbn [at2]. rewrite (Nat.max_comm i j), (Nat.min_comm i j). reflexivity. }
  assert (E1 : forall x, x = Fin 1 -> nclip (Fin 0) (Fin 1) match r_conversion double method (nclip (Fin (-1)) (Fin 1) x) with Ok d => d | Raise _ => NaN end = Fin 0).
  { intros x ->. rewrite clip_fin by lra. rewrite Rmin_left, Rmax_right by lra. destruct (conv_fin double binary64_rounding method 1 Hm ltac:(lra)) as [E B]. rewrite E, (rdist_1 double binary64_rounding method Hm), clip_fin by lra. rewrite Rmin_right, Rmax_right by lra. reflexivity. }
  split.
  - eexists. intros names. unfold r_corr_distance_matrix, check_2d. rewrite N2. cbn [bind r_pearson_matrix ncol]. rewrite N2. cbn [bind]. rewrite K. cbn [negb]. unfold r_convert, r_conversion_all. rewrite K'. cbn [bind].
    split; [reflexivity|]. split; [reflexivity|]. split; [reflexivity|]. cbn [amap at2]. split; [intros j Hj; apply E1; apply (Dg j Hj)|]. intros i j. split; [apply conv_any; [apply binary64_rounding|auto]|].
    fold c. rewrite (Sy i j). reflexivity.
  - intros Hf. assert (V : validate_corr (OArr2 c) = Ok tt).
    { unfold validate_corr. change (nrow c) with (ncol a). change (ncol c) with (ncol a). rewrite Nat.eqb_refl. cbn [negb].
      assert (T : close_to_transpose c = true). { unfold close_to_transpose, all_upto. apply forallb_forall. intros i Hi. apply forallb_forall. intros j Hj. apply in_seq in Hi. apply in_seq in Hj. change (nrow c) with (ncol a) in *. change (ncol c) with (ncol a) in *.
        rewrite (Sy j i). apply is_close_self. apply Hf; lia. }
      rewrite T. cbn [negb]. assert (U : all_upto (ncol a) (fun i => neqb (at2 c i i) (Fin 1)) = true).
      { unfold all_upto. apply forallb_forall. intros i Hi. apply in_seq in Hi. rewrite Dg by lia. cbn [neqb]. apply reqb_true. reflexivity. }
      rewrite U. reflexivity. }
    eexists. unfold r_corr_distance_matrix, check_2d. rewrite N2. cbn [bind]. fold c. change (ncol c) with (ncol a). rewrite N2. cbn [bind]. rewrite K. cbn [negb]. unfold r_convert. rewrite V. cbn [bind]. unfold r_conversion_all. rewrite K'. cbn [bind].
    split; [reflexivity|]. split; [reflexivity|]. split; [reflexivity|]. cbn [fill_diag amap at2]. split; [intros j; rewrite Nat.eqb_refl; reflexivity|]. intros i j. rewrite (Nat.eqb_sym j i).
    destruct (Nat.eqb i j); [split; [right; exists 0; split; [reflexivity|lra]|reflexivity]|]. split; [apply conv_any; [apply binary64_rounding|auto]|]. rewrite (Sy i j). reflexivity.
Qed.
Print Assumptions C101_distance_matrix.
Example C101_distance_matrix_case : exists b, r_corr_distance_matrix double (OArr2 (mkArr 2 2 (fun i j => if Nat.eqb i 0 then Fin 0 else Fin 2))) "angular" = Ok (OArr2 b) /\ at2 b 0 1 = Fin 0.
Proof.
  set (a := mkArr 2 2 (fun i j => if Nat.eqb i 0 then Fin 0 else Fin 2)). assert (S1 : forall j, r_pandas_pearson double (col a j) (col a j) = Fin 1) by (intros j; apply self_1; exact C101_self_correlation_case).
  assert (P : forall i j, at2 (r_pearson_matrix double a) i j = Fin 1) by (intros i j; apply (S1 0%nat)).
  destruct (C101_distance_matrix a "angular") as [_ [b (E & _)]]; [left; reflexivity|cbn; lia|intros j _; exact C101_self_correlation_case|intros i j _ _; rewrite P; discriminate|].
  exists b. split; [exact E|]. revert E. unfold r_corr_distance_matrix, check_2d. cbn [a ncol Nat.ltb Nat.leb bind r_pearson_matrix]. cbn [existsb dist_methods String.eqb Ascii.eqb Bool.eqb orb negb]. unfold r_convert.
  destruct (validate_corr _); [|discriminate]. cbn [bind]. unfold r_conversion_all. cbn [existsb String.eqb Ascii.eqb Bool.eqb orb bind]. intros E. injection E as <-. cbn [fill_diag amap at2 Nat.eqb].
  rewrite (P 0%nat 1%nat). rewrite clip_fin by lra. rewrite Rmin_left, Rmax_right by lra.
  destruct (conv_fin double binary64_rounding "angular" 1 (or_introl eq_refl) ltac:(lra)) as [E B]. rewrite (rdist_1 double binary64_rounding "angular" (or_introl eq_refl)) in E. unfold r_conversion in E. cbn [String.eqb Ascii.eqb Bool.eqb] in E.
  assert (E' : forall u v : num, Ok u = Ok v -> u = v) by (intros u v Euv; injection Euv; auto). apply E' in E. rewrite E, clip_fin by lra. rewrite Rmin_right, Rmax_right by lra. reflexivity.
Qed.
