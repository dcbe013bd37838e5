(** Without rounding the operations of Rnd_Model are those of the other models. *)
From Coq Require Import Reals Lra Lia String ZArith List Arith Bool FunctionalExtensionality.
From Verif Require Import Base Num Sums Feat_Ops Feat_Model Feat_Proofs.
From Verif Require Import Sim_Model Dist_Model Dist_Spec Dist_Proofs Rnd_Model Rnd_Spec Rnd_Proofs.
Import ListNotations.
Open Scope R_scope.

Lemma fl_exact : forall x, fl exact x = x. Proof. intros []; reflexivity. Qed.
Lemma fadd_exact : fadd exact = nadd.
Proof. apply functional_extensionality; intros x; apply functional_extensionality; intros y; apply fl_exact. Qed.
Lemma fsub_exact : fsub exact = nsub.
Proof. apply functional_extensionality; intros x; apply functional_extensionality; intros y; apply fl_exact. Qed.
Lemma fmul_exact : fmul exact = nmul.
Proof. apply functional_extensionality; intros x; apply functional_extensionality; intros y; apply fl_exact. Qed.
Lemma fdiv_exact : fdiv exact = ndiv.
Proof. apply functional_extensionality; intros x; apply functional_extensionality; intros y; apply fl_exact. Qed.
Lemma fsqrt_exact : fsqrt exact = nsqrt.
Proof. apply functional_extensionality; intros x; apply fl_exact. Qed.
Lemma fsqr_exact : fsqr exact = nsqr.
Proof. apply functional_extensionality; intros x; unfold fsqr; rewrite fmul_exact; reflexivity. Qed.
Lemma fexp_exact : fexp exact = nexp.
Proof. apply functional_extensionality; intros []; reflexivity. Qed.
Lemma flog_exact : flog exact = nlog.
Proof. apply functional_extensionality; intros [r| | |]; try reflexivity. unfold flog, nlog. destruct (rltb 0 r); reflexivity. Qed.
Ltac ex := rewrite ?fadd_exact, ?fsub_exact, ?fmul_exact, ?fdiv_exact, ?fsqrt_exact, ?fsqr_exact, ?fexp_exact, ?flog_exact.

Lemma conversion_exact : r_conversion exact = conversion.
Proof. apply functional_extensionality; intros m; apply functional_extensionality; intros x. unfold r_conversion, conversion. ex. reflexivity. Qed.
Lemma convert_exact : forall m x, r_convert exact m x = convert m x.
Proof. intros m x. unfold r_convert, convert, r_conversion_all, conversion_all. rewrite conversion_exact. destruct x; reflexivity. Qed.

Lemma ewm_step_exact : forall a s x, r_ewm_step exact a s x = ewm_step a s x.
Proof. intros a [[m old] n] x. reflexivity. Qed.
Lemma ewm_run_exact : forall a p l s, r_ewm_run exact a p s l = ewm_run a p s l.
Proof. induction l as [|x l IH]; intros s; [reflexivity|]. cbn [r_ewm_run ewm_run]. rewrite ewm_step_exact, IH. reflexivity. Qed.
Lemma diff_exact : forall l, r_diff exact l = diff 1 l.
Proof. intros. unfold r_diff, diff. ex. reflexivity. Qed.
Lemma gains_exact : forall l, r_gains exact l = gains l.
Proof. intros. unfold r_gains, gains. rewrite diff_exact. reflexivity. Qed.
Lemma losses_exact : forall l, r_losses exact l = losses l.
Proof. intros. unfold r_losses, losses. rewrite diff_exact. reflexivity. Qed.
Lemma strength_exact : r_strength exact = strength.
Proof. apply functional_extensionality; intros x; apply functional_extensionality; intros y. unfold r_strength, strength. ex. reflexivity. Qed.
Lemma true_range_exact : forall h l c, r_true_range exact h l c = true_range h l c.
Proof. intros. unfold r_true_range, true_range. ex. reflexivity. Qed.
Lemma spread_exact : forall a, r_spread exact a = ndiv (nmul (Fin 2) (nsub (nexp a) (Fin 1))) (nadd (nexp a) (Fin 1)).
Proof. intros. unfold r_spread. ex. reflexivity. Qed.

(** ** paths *)
Lemma fill_exact : forall V loc scale z, r_fill_noise exact V loc scale z = fill_noise V loc scale None z.
Proof. intros. unfold r_fill_noise, fill_noise, correlate. ex. reflexivity. Qed.
Lemma cumsum_exact : forall f, r_cumsum exact f = cumsum f.
Proof.
  intros f. apply functional_extensionality; intros t; apply functional_extensionality; intros c. induction t as [|t IH]; [reflexivity|].
  cbn [r_cumsum cumsum]. rewrite IH. ex. reflexivity.
Qed.
Lemma ou_run_exact : forall fac f, r_ou_run exact fac f = ou_run fac f.
Proof.
  intros fac f. apply functional_extensionality; intros t; apply functional_extensionality; intros c. induction t as [|t IH]; [reflexivity|].
  cbn [r_ou_run ou_run]. rewrite IH. ex. reflexivity.
Qed.
Lemma bm_path_exact : forall m z x0 dt steps paths, bm_L m = None -> r_bm_path exact m z x0 dt steps paths = bm_path_np m z x0 dt steps paths.
Proof.
  intros m z x0 dt steps paths E. unfold r_bm_path, bm_path_np, scale_dt. rewrite E. ex. destruct (set_x0 x0 _); [|reflexivity]. cbn [bind].
  destruct (Nat.eqb _ 0); [reflexivity|]. rewrite fill_exact. destruct (fill_noise _ _ _ _ _); [|reflexivity]. cbn [bind]. rewrite cumsum_exact. reflexivity.
Qed.
Lemma gbm_path_exact : forall m z x0 dt steps paths, bm_L m = None -> r_gbm_path exact m z x0 dt steps paths = gbm_path_np m z x0 dt steps paths.
Proof.
  intros m z x0 dt steps paths E. unfold r_gbm_path, gbm_path_np, scale_dt, r_gbm_mean, gbm_mean. rewrite E. ex. destruct (set_x0 _ _); [|reflexivity]. cbn [bind].
  destruct (Nat.eqb _ 0); [reflexivity|]. destruct (_ || _); [|reflexivity]. cbn [bind]. rewrite fill_exact. destruct (fill_noise _ _ _ _ _); [|reflexivity]. cbn [bind]. rewrite cumsum_exact. reflexivity.
Qed.
Lemma ou_path_exact : forall m z x0 dt steps paths, ou_L m = None -> r_ou_path exact m z x0 dt steps paths = ou_path_np m z x0 dt steps paths.
Proof.
  intros m z x0 dt steps paths E. unfold r_ou_path, ou_path_np, r_ou_mean_term, ou_mean_term, r_ou_scale, ou_scale, r_ou_factor, ou_factor. rewrite E. ex.
  destruct (pmap2 _ _ _); [|reflexivity]. cbn [bind]. destruct (pmap2 ndiv _ _); [|reflexivity]. cbn [bind]. destruct (pmap2 _ _ _); [|reflexivity]. cbn [bind].
  destruct (ou_mean m); [reflexivity|]. destruct (set_x0 _ _); [|reflexivity]. cbn [bind].
  destruct (Nat.eqb _ 0); [reflexivity|]. rewrite fill_exact. destruct (fill_noise _ _ _ _ _); [|reflexivity]. cbn [bind]. rewrite ou_run_exact. reflexivity.
Qed.

(** ** correlations *)
Lemma nadd_c : forall x y, nadd x y = nadd y x.
Proof. intros [] []; cbn; auto. f_equal. lra. Qed.
Lemma nadd_a : forall x y z, nadd x (nadd y z) = nadd (nadd x y) z.
Proof. intros [] [] []; cbn; auto. f_equal. lra. Qed.
Lemma nadd_0l : forall x, nadd (Fin 0) x = x.
Proof. intros []; cbn; auto. f_equal. lra. Qed.
Lemma sum_exact : forall l, r_sum exact l = nsum l.
Proof.
  intros l. unfold r_sum, nsum. ex. assert (G : forall l a, fold_left nadd l a = nadd a (fold_right nadd (Fin 0) l)).
  { induction l0 as [|x l0 IH]; intros a; cbn [fold_left fold_right]; [rewrite nadd_c, nadd_0l; reflexivity|]. rewrite IH, nadd_a. reflexivity. }
  rewrite G, nadd_0l. reflexivity.
Qed.
Lemma cov_exact : forall x y, r_cov exact x y = Dist_Model.ncov x y.
Proof. intros. unfold r_cov, Dist_Model.ncov, nmean. rewrite !sum_exact. ex. reflexivity. Qed.
Lemma corrcoef_exact : forall a i j, Dist_Model.corrcoef (col a i) (col a j) = Ok (at2 (r_corrcoef exact a) i j).
Proof.
  intros a i j. unfold Dist_Model.corrcoef, r_corrcoef. cbn [at2]. rewrite !cov_exact. ex. unfold col. rewrite !map_length, Nat.eqb_refl. reflexivity.
Qed.

(** Welford's updates: n m_x = sum of x, s_x = sum of x^2 - m_x sum of x, c = sum of x y - m_x sum of y *)
Definition sx (l : list (R * R)) : R := rsum (map fst l).
Definition sy (l : list (R * R)) : R := rsum (map snd l).
Definition sxx (l : list (R * R)) : R := rsum (map (fun p => fst p * fst p) l).
Definition syy (l : list (R * R)) : R := rsum (map (fun p => snd p * snd p) l).
Definition sxy (l : list (R * R)) : R := rsum (map (fun p => fst p * snd p) l).
Lemma rsum_snoc : forall l a, rsum (l ++ [a]) = rsum l + a.
Proof. intros. rewrite rsum_app. cbn. lra. Qed.
Lemma welford : forall l, let s := w_run exact l in
  w_n s = INR (length l) /\ INR (length l) * w_mx s = sx l /\ INR (length l) * w_my s = sy l /\
  w_sx s = sxx l - w_mx s * sx l /\ w_sy s = syy l - w_my s * sy l /\ w_c s = sxy l - w_mx s * sy l.
Proof.
  intros l. cbn zeta. unfold w_run. induction l as [|[x y] l IH] using rev_ind; [cbn; repeat split; lra|].
  rewrite fold_left_app. cbn [fold_left]. set (s := fold_left (w_step exact) l _) in *. destruct IH as (En & Ex & Ey & Exx & Eyy & Exy).
  assert (N : 0 <= INR (length l)) by apply pos_INR.
  unfold w_step. cbn [w_n w_mx w_my w_sx w_sy w_c rnd exact fst snd]. rewrite app_length. cbn [length]. rewrite Nat.add_1_r, S_INR, En.
  unfold sx, sy, sxx, syy, sxy. rewrite !map_app. cbn [map fst snd]. rewrite !rsum_snoc. fold (sx l) (sy l) (sxx l) (syy l) (sxy l).
  rewrite Exx, Eyy, Exy, <- Ex, <- Ey. repeat split; field; lra.
Qed.
Lemma inner_sums : forall x y, length x = length y -> (1 <= length x)%nat -> inner x y = sxy (combine x y) - rmean x * rsum y.
Proof.
  intros x y Hl Hn. unfold inner, centred. assert (E : rsum (map (fun i => (nth i x 0 - rmean x) * (nth i y 0 - rmean y)) (seq 0 (length x))) = rsum (map (fun p : R * R => (fst p - rmean x) * (snd p - rmean y)) (combine x y))).
  { rewrite (combine_nth_map x y) by auto. rewrite map_map. reflexivity. }
  rewrite E. assert (G : forall (u v : list R) a b, length u = length v -> rsum (map (fun p : R * R => (fst p - a) * (snd p - b)) (combine u v)) = sxy (combine u v) - a * rsum v - b * rsum u + INR (length u) * a * b).
  { induction u as [|p u IH]; intros [|q v] a b L; try discriminate; [unfold sxy; cbn; lra|]. unfold sxy in *. cbn [combine map rsum fold_right fst snd length]. fold (rsum u) (rsum v).
    injection L as L. specialize (IH v a b L). rewrite S_INR. unfold rsum in *. lra. }
  rewrite G by auto. assert (INR (length x) <> 0) by (apply not_0_INR; lia).
  assert (Ey : rsum x = INR (length x) * rmean x) by (unfold rmean; field; auto). rewrite Ey. ring.
Qed.
Lemma combine_fst : forall (x y : list R), length x = length y -> map fst (combine x y) = x.
Proof. induction x as [|a x IH]; intros [|b y] L; try discriminate; [reflexivity|]. cbn. f_equal. apply IH. auto. Qed.
Lemma combine_snd : forall (x y : list R), length x = length y -> map snd (combine x y) = y.
Proof. induction x as [|a x IH]; intros [|b y] L; try discriminate; [reflexivity|]. cbn. f_equal. apply IH. auto. Qed.
Lemma combine_diag : forall (x y : list R), length x = length y -> sxx (combine x y) = sxy (combine x x) /\ syy (combine x y) = sxy (combine y y).
Proof. unfold sxx, syy, sxy. induction x as [|a x IH]; intros [|b y] L; try discriminate; [split; reflexivity|]. cbn. injection L as L. destruct (IH y L) as [E1 E2]. unfold rsum in *. rewrite E1, E2. auto. Qed.
Lemma pearson_exact : forall x y, length x = length y -> (1 <= length x)%nat -> r_pearson exact x y = pandas_pearson (map Fin x) (map Fin y).
Proof.
  intros x y Hl Hn. unfold r_pearson, pandas_pearson.
  assert (C : complete (map Fin x) (map Fin y) = combine (map Fin x) (map Fin y)).
  { unfold complete. rewrite combine_map2. induction (combine x y) as [|p l IH]; [reflexivity|]. cbn. f_equal. exact IH. }
  rewrite C. assert (F1 : map fst (combine (map Fin x) (map Fin y)) = map Fin x).
  { rewrite combine_map2, map_map. cbn [fst]. rewrite <- (map_map fst Fin), combine_fst by auto. reflexivity. }
  assert (F2 : map snd (combine (map Fin x) (map Fin y)) = map Fin y).
  { rewrite combine_map2, map_map. cbn [snd]. rewrite <- (map_map snd Fin), combine_snd by auto. reflexivity. }
  rewrite F1, F2, combine_length, !map_length, <- Hl, Nat.min_id. destruct (Nat.ltb_spec (length x) 1); [lia|].
  rewrite !dev_real by (auto; lia).
  destruct (welford (combine x y)) as (_ & Ex & Ey & Exx & Eyy & Exy). cbn zeta in *. set (s := w_run exact (combine x y)) in *.
  rewrite combine_length, <- Hl, Nat.min_id in Ex, Ey. unfold sx in Ex, Exx. unfold sy in Ey, Eyy, Exy. rewrite combine_fst in * by auto. rewrite combine_snd in * by auto.
  assert (Nz : INR (length x) <> 0) by (apply not_0_INR; lia).
  assert (Mx : w_mx s = rmean x) by (unfold rmean; apply Rmult_eq_reg_l with (INR (length x)); auto; rewrite Ex; field; auto).
  assert (My : w_my s = rmean y) by (unfold rmean; rewrite <- Hl; apply Rmult_eq_reg_l with (INR (length x)); auto; rewrite Ey; field; auto).
  destruct (combine_diag x y Hl) as [D1 D2]. rewrite D1 in Exx. rewrite D2 in Eyy. rewrite Mx in *. rewrite My in *.
  rewrite <- (inner_sums x x) in Exx by auto. rewrite <- (inner_sums y y) in Eyy by (auto; lia). rewrite <- (inner_sums x y) in Exy by auto.
  rewrite Exx, Eyy, Exy. cbn [rnd exact nmul].
  assert (P : 0 <= inner x x * inner y y). { apply Rmult_le_pos; rewrite inner_dot; apply dot_nonneg. }
  rewrite nsqrt_fin by auto. cbn [neqb]. unfold ndiv. destruct (reqb (sqrt (inner x x * inner y y)) 0); reflexivity.
Qed.

Lemma complete_fin : forall x y, exists u v, length u = length v /\ map fst (complete x y) = map Fin u /\ map snd (complete x y) = map Fin v /\
  map fval (map fst (complete x y)) = u /\ map fval (map snd (complete x y)) = v /\ length u = length (complete x y).
Proof.
  intros x y. unfold complete. induction (combine x y) as [|[p q] l IH]; [exists [], []; cbn; auto 7|]. cbn [filter].
  destruct IH as (u & v & L & E1 & E2 & E3 & E4 & E5). destruct p as [a| | |]; cbn [is_fin fst snd andb]; try solve [exists u, v; auto 7].
  destruct q as [b| | |]; cbn [is_fin]; try solve [exists u, v; auto 7]. exists (a :: u), (b :: v). cbn [map length fst snd fval]. rewrite E1, E2, E5.
  rewrite E1 in E3. rewrite E2 in E4. rewrite E3, E4. repeat split. lia.
Qed.
Lemma map_fin_inj : forall u v, map Fin u = map Fin v -> u = v.
Proof. induction u as [|a u IH]; intros [|b v] E; try discriminate; auto. injection E as -> E. f_equal. auto. Qed.
Lemma pandas_pearson_exact : forall x y, r_pandas_pearson exact x y = pandas_pearson x y.
Proof.
  intros x y. unfold r_pandas_pearson. destruct (complete_fin x y) as (u & v & L & E1 & E2 & E3 & E4 & E5). rewrite E3, E4.
  destruct (Nat.ltb_spec (length (complete x y)) 1) as [H|H].
  - unfold pandas_pearson. destruct (Nat.ltb_spec (length (complete x y)) 1); [reflexivity|lia].
  - rewrite pearson_exact by (auto; lia). unfold pandas_pearson at 2. rewrite E1, E2.
    unfold pandas_pearson. assert (C : complete (map Fin u) (map Fin v) = combine (map Fin u) (map Fin v)).
    { unfold complete. rewrite combine_map2. induction (combine u v) as [|p l IH]; [reflexivity|]. cbn. f_equal. exact IH. }
    rewrite C. assert (F1 : map fst (combine (map Fin u) (map Fin v)) = map Fin u).
    { rewrite combine_map2, map_map. cbn [fst]. rewrite <- (map_map fst Fin), combine_fst by auto. reflexivity. }
    assert (F2 : map snd (combine (map Fin u) (map Fin v)) = map Fin v).
    { rewrite combine_map2, map_map. cbn [snd]. rewrite <- (map_map snd Fin), combine_snd by auto. reflexivity. }
    rewrite F1, F2, combine_length, !map_length, <- L, Nat.min_id, E5. destruct (Nat.ltb_spec (length (complete x y)) 1); [lia|]. reflexivity.
Qed.
Lemma pandas_pearson_sym : forall x y, length x = length y -> pandas_pearson x y = pandas_pearson y x.
Proof.
  intros x y Hl. destruct (complete_fin x y) as (u & v & L & E1 & E2 & E3 & E4 & E5).
  assert (S0 : complete y x = map (fun p => (snd p, fst p)) (complete x y)).
  { unfold complete. clear - Hl. revert y Hl. induction x as [|a x IH]; intros [|b y] Hl; try discriminate; [reflexivity|]. injection Hl as Hl. specialize (IH y Hl).
    cbn [combine filter fst snd]. rewrite (andb_comm (is_fin b)). destruct (is_fin a && is_fin b); [cbn [map fst snd]; f_equal; exact IH|exact IH]. }
  assert (S1 : map fst (complete y x) = map Fin v) by (rewrite S0, map_map, <- E2; apply map_ext; intros; reflexivity).
  assert (S2 : map snd (complete y x) = map Fin u) by (rewrite S0, map_map, <- E1; apply map_ext; intros; reflexivity).
  assert (S3 : length (complete y x) = length (complete x y)) by (rewrite S0, map_length; reflexivity).
  unfold pandas_pearson. rewrite S1, S2, S3, E1, E2.
  destruct (Nat.ltb_spec (length (complete x y)) 1); [reflexivity|]. rewrite !dev_real by (auto; lia). cbn [nmul].
  rewrite (inner_sym v u) by auto. replace (inner v v * inner u u) with (inner u u * inner v v) by ring. reflexivity.
Qed.
Lemma corr_distance_exact : forall spearman X m, r_corr_distance_matrix exact X m = get_corr_distance_matrix spearman X "pearson" m None.
Proof.
  intros sp X m. assert (P : forall a, r_pearson_matrix exact a = pearson_matrix a).
  { intros a. unfold r_pearson_matrix, pearson_matrix. f_equal. apply functional_extensionality; intros i. apply functional_extensionality; intros j.
    rewrite pandas_pearson_exact. destruct (Nat.le_ge_cases i j) as [L|L]; [rewrite Nat.max_r, Nat.min_l by auto; apply pandas_pearson_sym; unfold col; rewrite !map_length; reflexivity|rewrite Nat.max_l, Nat.min_r by auto; reflexivity]. }
  unfold r_corr_distance_matrix, get_corr_distance_matrix, calculate_correlation, corr_to_dist. cbn [existsb String.eqb Ascii.eqb Bool.eqb orb negb].
  destruct (check_2d X); [|reflexivity]. cbn [bind]. destruct X; try reflexivity; cbn [bind]; rewrite P, convert_exact; reflexivity.
Qed.
