(** C100: what survives floating-point rounding. *)
From Coq Require Import Reals Lra Lia String ZArith List Arith Bool.
From Flocq Require Import Core.
From Verif Require Import Base Num Sums Feat_Ops Feat_Model Feat_Proofs.
From Verif Require Import Sim_Model Dist_Model Dist_Spec Rnd_Model Rnd_Spec Rnd_Proofs Rnd_Exact Rnd_Float.
Import ListNotations.
Open Scope R_scope.

(** IEEE double precision satisfies what is asked of a rounding *)
Theorem C100_binary64 : rounding binary64 /\ rounding (rnd double) /\ rounding (rnd exact).
Proof.
  split; [apply binary64_rounding|]. split; [apply binary64_rounding|]. split; unfold held; cbn; auto.
Qed.
Print Assumptions C100_binary64.

(** without rounding these models are the models of the other properties *)
Theorem C100_exact_results :
  (forall method x, r_convert exact method x = convert method x) /\
  (forall spearman X method, r_corr_distance_matrix exact X method = get_corr_distance_matrix spearman X "pearson" method None) /\
  (forall a i j, Dist_Model.corrcoef (col a i) (col a j) = Ok (at2 (r_corrcoef exact a) i j)) /\
  (forall ts w, (1 <= w)%Z -> rsi ts w = Ok (r_rsi exact (Z.to_nat w) ts)) /\
  (forall ts p, 1 <= p -> ewm_rsi ts p = Ok (r_ewm_rsi exact (2 / (p + 1)) ts)) /\
  (forall b, upper b = r_upper exact b /\ lower b = r_lower exact b /\ bandwidth b = r_bandwidth exact b) /\
  (forall h l c w, (1 <= w)%Z -> average_true_range h l c w = Ok (r_average_true_range exact h l c (1 / IZR w))) /\
  (forall h l w, corwin_schultz_spread h l w = (beta <- get_beta h l w ;; Ok (map (r_spread exact) (get_alpha beta (get_gamma h l))))) /\
  (forall m z x0 dt steps paths, bm_L m = None -> bm_path_np m z x0 dt steps paths = r_bm_path exact m z x0 dt steps paths) /\
  (forall m z x0 dt steps paths, bm_L m = None -> gbm_path_np m z x0 dt steps paths = r_gbm_path exact m z x0 dt steps paths) /\
  (forall m z x0 dt steps paths, ou_L m = None -> ou_path_np m z x0 dt steps paths = r_ou_path exact m z x0 dt steps paths).
Proof.
  split; [apply convert_exact|]. split; [apply corr_distance_exact|]. split; [apply corrcoef_exact|].
  split. { intros ts w Hw. unfold rsi, rolling, r_rsi. destruct (Z.ltb_spec w 0); [lia|]. cbn [bind].
           rewrite strength_exact, gains_exact, losses_exact, !roll_mean_exact by lia. reflexivity. }
  split. { intros ts p Hp. unfold ewm_rsi, ewm_span, r_ewm_rsi. rewrite (proj2 (rltb_false p 1)) by lra. cbn [bind].
           rewrite strength_exact, gains_exact, losses_exact, !ewm_run_exact. reflexivity. }
  split. { intros b. unfold upper, r_upper, lower, r_lower, bandwidth, r_bandwidth. ex. auto. }
  split. { intros h l c w Hw. unfold average_true_range, ewm_alpha, r_average_true_range. destruct (Z.eqb_spec w 0); [lia|].
           assert (1 <= IZR w) by (apply IZR_le; lia). assert (0 < 1 / IZR w <= 1).
           { split; [apply Rdiv_lt_0_compat; lra|]. apply Rmult_le_reg_r with (IZR w); [lra|]. field_simplify; lra. }
           rewrite (proj2 (rltb_true 0 (1 / IZR w))), (proj2 (rleb_true (1 / IZR w) 1)) by lra. cbn [andb]. rewrite ewm_run_exact, true_range_exact. reflexivity. }
  split. { intros h l w. unfold corwin_schultz_spread. destruct (get_beta h l w); [|reflexivity]. cbn [bind]. f_equal. apply map_ext. intros a0. symmetry. apply spread_exact. }
  split; [intros; symmetry; apply bm_path_exact; auto|]. split; [intros; symmetry; apply gbm_path_exact; auto|intros; symmetry; apply ou_path_exact; auto].
Qed.
Print Assumptions C100_exact_results.

(** ** correlation distances *)
Lemma clip_fin : forall lo hi a, lo <= hi -> nclip (Fin lo) (Fin hi) (Fin a) = Fin (Rmax lo (Rmin hi a)).
Proof.
  intros lo hi a H. unfold nclip. cbn [is_nan nltb]. destruct (rltb a lo) eqn:E1; cbn [is_nan nltb].
  - apply rltb_true in E1. rewrite (proj2 (rltb_false hi lo)) by lra. f_equal. rewrite Rmax_left; auto. rewrite Rmin_right; lra.
  - apply rltb_false in E1. destruct (rltb hi a) eqn:E2.
    + apply rltb_true in E2. rewrite Rmin_left, Rmax_right by lra. reflexivity.
    + apply rltb_false in E2. rewrite Rmin_right, Rmax_right by lra. reflexivity.
Qed.
Definition rdist (r : R -> R) (method : string) (x : R) : R :=
  if String.eqb method "angular" then r (sqrt (r (r (1 - x) / 2)))
  else if String.eqb method "abs_angular" then r (sqrt (r (1 - Rabs x)))
  else r (sqrt (r (1 - r (x * x)))).
Definition clamp1 (c : R) : R := Rmax (-1) (Rmin 1 c).
Lemma clamp1_range : forall c, -1 <= clamp1 c <= 1.
Proof. intros. unfold clamp1. split; [apply Rmax_l|]. apply Rmax_lub; [lra|apply Rmin_l]. Qed.
Section D.
Variable M : machine.
Hypothesis H : rounding (rnd M).
Lemma square_le1 : forall x, -1 <= x <= 1 -> rnd M (x * x) <= 1.
Proof. intros x Hx. apply r_le1; auto. nra. Qed.
Lemma sqrt_le1 : forall y, y <= 1 -> rnd M (sqrt y) <= 1.
Proof. intros y Hy. apply r_le1; auto. rewrite <- sqrt_1. apply sqrt_le_1_alt. auto. Qed.
Lemma conv_fin : forall method x, known_method method -> -1 <= x <= 1 ->
  r_conversion M method (Fin x) = Ok (Fin (rdist (rnd M) method x)) /\ 0 <= rdist (rnd M) method x <= 1.
Proof.
  intros method x Hm Hx. assert (Habs : Rabs x <= 1) by (apply Rabs_le; lra).
  destruct Hm as [->|[->| ->]]; unfold r_conversion, rdist; cbn [String.eqb Ascii.eqb Bool.eqb]; unfold fsqrt, fdiv, fsub, fsqr, fmul; cbn [fl nabs nmul].
  - rewrite nsub_fin. cbn [fl]. rewrite ndiv_fin by lra. cbn [fl]. assert (0 <= rnd M (1 - x)) by (apply r_pos; auto; lra).
    assert (0 <= rnd M (rnd M (1 - x) / 2)) by (apply r_pos; auto; lra). rewrite nsqrt_fin by auto. split; [reflexivity|]. split; [apply r_pos; auto; apply sqrt_pos|].
    apply sqrt_le1. apply r_le1; auto. assert (rnd M (1 - x) <= 2); [|lra]. rewrite <- (r_2 _ H). apply (r_mono _ H). lra.
  - rewrite nsub_fin. cbn [fl]. assert (0 <= rnd M (1 - Rabs x)) by (apply r_pos; auto; lra). rewrite nsqrt_fin by auto. split; [reflexivity|]. split; [apply r_pos; auto; apply sqrt_pos|].
    apply sqrt_le1. apply r_le1; auto. generalize (Rabs_pos x). lra.
  - rewrite nsub_fin. cbn [fl]. generalize (square_le1 x Hx); intros. assert (0 <= rnd M (x * x)) by (apply r_pos; auto; nra).
    assert (0 <= rnd M (1 - rnd M (x * x))) by (apply r_pos; auto; lra). rewrite nsqrt_fin by auto. split; [reflexivity|]. split; [apply r_pos; auto; apply sqrt_pos|].
    apply sqrt_le1. apply r_le1; auto. lra.
Qed.
Lemma rdist_1 : forall method, known_method method -> rdist (rnd M) method 1 = 0.
Proof.
  intros method Hm. assert (Z : rnd M (sqrt (rnd M 0)) = 0) by (rewrite (r_0 _ H), sqrt_0; apply r_0; auto).
  destruct Hm as [->|[->| ->]]; unfold rdist; cbn [String.eqb Ascii.eqb Bool.eqb].
  - replace (1 - 1) with 0 by lra. rewrite (r_0 _ H). replace (0 / 2) with 0 by lra. exact Z.
  - rewrite Rabs_R1. replace (1 - 1) with 0 by lra. exact Z.
  - rewrite Rmult_1_r, (r_1 _ H). replace (1 - 1) with 0 by lra. exact Z.
Qed.
Lemma convert_fin : forall method c, known_method method ->
  r_convert M method (OScalar (Fin c)) = Ok (OScalar (Fin (rdist (rnd M) method (clamp1 c)))) /\ 0 <= rdist (rnd M) method (clamp1 c) <= 1.
Proof.
  intros method c Hm. destruct (conv_fin method (clamp1 c) Hm (clamp1_range c)) as [E B]. split; [|exact B].
  unfold r_convert. rewrite clip_fin by lra. fold (clamp1 c). rewrite E. cbn [bind]. rewrite clip_fin by lra. rewrite Rmin_right, Rmax_right by lra. reflexivity.
Qed.
Lemma rdist_held : forall method x, held (rnd M) (rdist (rnd M) method x).
Proof. intros. unfold rdist. destruct (String.eqb _ _); [apply (r_idem _ H)|]. destruct (String.eqb _ _); apply (r_idem _ H). Qed.
End D.

(** The distance of a floating-point correlation is a floating-point number in [0, 1]; it is exactly 0 for correlation 1 (and for anything
    above, which rounding can produce). *)
Theorem C100_distance : forall M, rounding (rnd M) -> forall method c, known_method method ->
  exists d, r_convert M method (OScalar (Fin c)) = Ok (OScalar (Fin d)) /\ 0 <= d <= 1 /\ held (rnd M) d /\ (1 <= c -> d = 0).
Proof.
  intros M H method c Hm. destruct (convert_fin M H method c Hm) as [E B]. eexists. split; [exact E|]. split; [exact B|]. split; [apply rdist_held; auto|].
  intros Hc. unfold clamp1. rewrite Rmin_left, Rmax_right by lra. apply rdist_1; auto.
Qed.
Print Assumptions C100_distance.
Example C100_distance_case : exists d, r_convert double "angular" (OScalar (Fin (1 + / 1000))) = Ok (OScalar (Fin d)) /\ d = 0.
Proof.
  destruct (C100_distance double binary64_rounding "angular" (1 + / 1000)) as (d & E & _ & _ & Z); [left; reflexivity|]. exists d. split; [exact E|]. apply Z. lra.
Qed.

(** Rounding cannot reverse an order: a larger correlation never gets a larger angular distance, the other two distances do not depend on
    the sign and never grow with the size; the extreme values are exact. *)
Theorem C100_distance_order : forall M, rounding (rnd M) ->
  (forall c c' d d', c <= c' -> r_convert M "angular" (OScalar (Fin c)) = Ok (OScalar (Fin d)) -> r_convert M "angular" (OScalar (Fin c')) = Ok (OScalar (Fin d')) -> d' <= d) /\
  (forall method, method = "abs_angular"%string \/ method = "squared_angular"%string ->
     (forall c, r_convert M method (OScalar (Fin (- c))) = r_convert M method (OScalar (Fin c))) /\
     (forall c c' d d', Rabs c <= Rabs c' -> r_convert M method (OScalar (Fin c)) = Ok (OScalar (Fin d)) -> r_convert M method (OScalar (Fin c')) = Ok (OScalar (Fin d')) -> d' <= d) /\
     r_convert M method (OScalar (Fin 0)) = Ok (OScalar (Fin 1))) /\
  r_convert M "angular" (OScalar (Fin (-1))) = Ok (OScalar (Fin 1)).
Proof.
  intros M H. assert (HM := r_mono _ H).
  assert (K1 : known_method "angular") by (left; reflexivity).
  split; [|split].
  - intros c c' d d' Hc E E'. rewrite (proj1 (convert_fin M H _ c K1)) in E. rewrite (proj1 (convert_fin M H _ c' K1)) in E'. injection E as <-. injection E' as <-.
    unfold rdist. cbn [String.eqb Ascii.eqb Bool.eqb]. assert (L : clamp1 c <= clamp1 c') by (unfold clamp1; apply Rle_max_compat_l; apply Rle_min_compat_l; auto).
    apply HM. apply sqrt_le_1_alt. apply HM. assert (rnd M (1 - clamp1 c') <= rnd M (1 - clamp1 c)) by (apply HM; lra). lra.
  - intros method Hm. assert (K : known_method method) by (destruct Hm; unfold known_method; auto).
    assert (Cn : forall c, clamp1 (- c) = - clamp1 c).
    { intros c. unfold clamp1. unfold Rmax, Rmin. repeat destruct (Rle_dec _ _); lra. }
    assert (Ca : forall c c', Rabs c <= Rabs c' -> Rabs (clamp1 c) <= Rabs (clamp1 c')).
    { intros c c'. unfold clamp1, Rmax, Rmin, Rabs. repeat destruct (Rle_dec _ _); repeat destruct (Rcase_abs _); lra. }
    split; [|split].
    + intros c. rewrite (proj1 (convert_fin M H _ _ K)), (proj1 (convert_fin M H _ _ K)). rewrite Cn. do 3 f_equal. destruct Hm as [->| ->]; unfold rdist; cbn [String.eqb Ascii.eqb Bool.eqb].
      * rewrite Rabs_Ropp. reflexivity.
      * do 4 f_equal. f_equal. ring.
    + intros c c' d d' Hc E E'. rewrite (proj1 (convert_fin M H _ c K)) in E. rewrite (proj1 (convert_fin M H _ c' K)) in E'. injection E as <-. injection E' as <-.
      specialize (Ca c c' Hc). destruct Hm as [->| ->]; unfold rdist; cbn [String.eqb Ascii.eqb Bool.eqb]; apply HM; apply sqrt_le_1_alt; apply HM.
      * lra.
      * assert (rnd M (clamp1 c * clamp1 c) <= rnd M (clamp1 c' * clamp1 c')); [|lra]. apply HM. apply Rsqr_le_abs_1 in Ca. exact Ca.
    + rewrite (proj1 (convert_fin M H _ _ K)). assert (C0 : clamp1 0 = 0) by (unfold clamp1; rewrite Rmin_right, Rmax_right; lra). rewrite C0.
      destruct Hm as [->| ->]; unfold rdist; cbn [String.eqb Ascii.eqb Bool.eqb].
      * rewrite Rabs_R0, Rminus_0_r, (r_1 _ H), sqrt_1, (r_1 _ H). reflexivity.
      * rewrite Rmult_0_l, (r_0 _ H), Rminus_0_r, (r_1 _ H), sqrt_1, (r_1 _ H). reflexivity.
  - rewrite (proj1 (convert_fin M H _ _ K1)). assert (C0 : clamp1 (-1) = -1) by (unfold clamp1; rewrite Rmin_right, Rmax_left; lra). rewrite C0.
    unfold rdist. cbn [String.eqb Ascii.eqb Bool.eqb]. replace (1 - -1) with 2 by lra. rewrite (r_2 _ H). replace (2 / 2) with 1 by lra. rewrite (r_1 _ H), sqrt_1, (r_1 _ H). reflexivity.
Qed.
Print Assumptions C100_distance_order.
Example C100_distance_order_case : exists d d', r_convert double "angular" (OScalar (Fin (/ 3))) = Ok (OScalar (Fin d)) /\ r_convert double "angular" (OScalar (Fin (/ 2))) = Ok (OScalar (Fin d')) /\ d' <= d.
Proof.
  destruct (C100_distance double binary64_rounding "angular" (/ 3)) as (d & E & _); [left; reflexivity|].
  destruct (C100_distance double binary64_rounding "angular" (/ 2)) as (d' & E' & _); [left; reflexivity|].
  exists d, d'. split; [exact E|]. split; [exact E'|]. apply (proj1 (C100_distance_order double binary64_rounding) (/ 3) (/ 2)); auto. lra.
Qed.

(** a matrix result has a zero diagonal and entries in [0, 1], or missing where the correlation is missing *)
Lemma conv_any : forall M, rounding (rnd M) -> forall method x, known_method method ->
  within 0 1 (nclip (Fin 0) (Fin 1) match r_conversion M method (nclip (Fin (-1)) (Fin 1) x) with Ok d => d | Raise _ => NaN end) /\
  (x <> NaN -> nclip (Fin 0) (Fin 1) match r_conversion M method (nclip (Fin (-1)) (Fin 1) x) with Ok d => d | Raise _ => NaN end <> NaN).
Proof.
  intros M H method x Hm.
  assert (F : forall a, -1 <= a <= 1 -> within 0 1 (nclip (Fin 0) (Fin 1) match r_conversion M method (Fin a) with Ok d => d | Raise _ => NaN end) /\
    nclip (Fin 0) (Fin 1) match r_conversion M method (Fin a) with Ok d => d | Raise _ => NaN end <> NaN).
  { intros a Ha. destruct (conv_fin M H method a Hm Ha) as [E B]. rewrite E, clip_fin by lra. rewrite Rmin_right, Rmax_right by lra. split; [right; eexists; split; [reflexivity|exact B]|discriminate]. }
  destruct x as [c| | |].
  - rewrite (clip_fin (-1) 1 c) by lra. destruct (F (Rmax (-1) (Rmin 1 c)) (clamp1_range c)) as [F1 F2]. auto.
  - split; [|congruence]. left. destruct Hm as [->|[->| ->]]; reflexivity.
  - destruct (F 1) as [F1 F2]; [lra|]. assert (E : nclip (Fin (-1)) (Fin 1) PInf = Fin 1) by reflexivity. rewrite E. auto.
  - destruct (F (-1)) as [F1 F2]; [lra|]. assert (E : nclip (Fin (-1)) (Fin 1) NInf = Fin (-1)). { unfold nclip. cbn [is_nan nltb]. rewrite (proj2 (rltb_false 1 (-1))) by lra. reflexivity. } rewrite E. auto.
Qed.
Theorem C100_distance_matrix : forall M, rounding (rnd M) -> forall method a b, known_method method -> r_convert M method (OArr2 a) = Ok (OArr2 b) ->
  nrow b = nrow a /\ ncol b = ncol a /\ (forall i, at2 b i i = Fin 0) /\
  (forall i j, within 0 1 (at2 b i j) /\ (at2 a i j <> NaN -> at2 b i j <> NaN)).
Proof.
  intros M H method a b Hm E. unfold r_convert in E. destruct (validate_corr (OArr2 a)); [|discriminate]. cbn [bind] in E.
  unfold r_conversion_all in E. assert (K : existsb (String.eqb method) ["angular"; "abs_angular"; "squared_angular"]%string = true) by (destruct Hm as [->|[->| ->]]; reflexivity).
  rewrite K in E. cbn [bind] in E. injection E as <-. cbn [nrow ncol at2 fill_diag amap]. split; [reflexivity|]. split; [reflexivity|]. split.
  - intros i. rewrite Nat.eqb_refl. reflexivity.
  - intros i j. destruct (Nat.eqb i j); [split; [right; exists 0; split; [reflexivity|lra]|discriminate]|]. apply conv_any; auto.
Qed.
Print Assumptions C100_distance_matrix.
Example C100_distance_matrix_case : exists b, r_convert double "abs_angular" (OArr2 (mkArr 2 2 (fun i j => if Nat.eqb i j then Fin 1 else Fin (/ 3)))) = Ok (OArr2 b).
Proof.
  unfold r_convert. assert (V : validate_corr (OArr2 (mkArr 2 2 (fun i j => if Nat.eqb i j then Fin 1 else Fin (/ 3)))) = Ok tt).
  { unfold validate_corr, close_to_transpose, all_upto, isclose. cbn [nrow ncol at2 seq forallb Nat.eqb negb andb].
    assert (T : forall u, rleb (Rabs (u - u)) (1 / 10 ^ 8 + 1 / 10 ^ 5 * Rabs u) = true). { intros u. apply rleb_true. replace (u - u) with 0 by ring. rewrite Rabs_R0. generalize (Rabs_pos u). lra. }
    rewrite !T. cbn [neqb]. rewrite (proj2 (reqb_true 1 1)) by reflexivity. reflexivity. }
  rewrite V. cbn. eexists; reflexivity.
Qed.

(** ** relative strength *)
Lemma nth_strength : forall M xs ys k, nth k (lift2 (r_strength M) xs ys) NaN = r_strength M (nth k xs NaN) (nth k ys NaN).
Proof. intros. apply nth_lift2. reflexivity. Qed.
Lemma nth_roll_mean : forall M w l k, (k < length l)%nat -> nth k (r_roll_mean M w l) NaN = ms_out M w (ms_at M w l k).
Proof. intros. unfold r_roll_mean. apply nth_seq_map'. auto. Qed.
Lemma len_diff' : forall M ts, length (r_diff M ts) = length ts.
Proof. intros. unfold r_diff. rewrite len_lift2, len_shift. lia. Qed.
Lemma len_gains : forall M ts, length (r_gains M ts) = length ts.
Proof. intros. unfold r_gains, where0. rewrite map_length. apply len_diff'. Qed.
Lemma len_losses : forall M ts, length (r_losses M ts) = length ts.
Proof. intros. unfold r_losses, where0. rewrite map_length. apply len_diff'. Qed.
Lemma diff_step : forall M ts j p q, nth j ts NaN = Fin p -> nth (S j) ts NaN = Fin q -> nth (S j) (r_diff M ts) NaN = Fin (rnd M (q - p)).
Proof.
  intros M ts j p q Hp Hq. rewrite nth_rdiff, nth_shift1, Hq. destruct (Nat.ltb_spec (S j) (length ts)) as [L|L]; [rewrite Hp; reflexivity|]. rewrite nth_overflow in Hq by auto. discriminate.
Qed.
Lemma no_loss : forall M, rounding (rnd M) -> forall ts j p q, nth j ts NaN = Fin p -> nth (S j) ts NaN = Fin q -> p <= q -> nth (S j) (r_losses M ts) NaN = Fin 0.
Proof.
  intros M H ts j p q Hp Hq L. assert (Hj : (S j < length ts)%nat) by (destruct (Nat.lt_ge_cases (S j) (length ts)); auto; rewrite nth_overflow in Hq by auto; discriminate).
  unfold r_losses, where0. rewrite nth_map_in by (rewrite len_diff'; auto). rewrite (diff_step M ts j p q) by auto. cbn [nltb]. rewrite (proj2 (rltb_false _ 0)); [reflexivity|]. apply r_pos; auto. lra.
Qed.
Lemma no_gain : forall M, rounding (rnd M) -> forall ts j p q, nth j ts NaN = Fin p -> nth (S j) ts NaN = Fin q -> q <= p -> nth (S j) (r_gains M ts) NaN = Fin 0.
Proof.
  intros M H ts j p q Hp Hq L. assert (Hj : (S j < length ts)%nat) by (destruct (Nat.lt_ge_cases (S j) (length ts)); auto; rewrite nth_overflow in Hq by auto; discriminate).
  unfold r_gains, where0. rewrite nth_map_in by (rewrite len_diff'; auto). rewrite (diff_step M ts j p q) by auto. unfold ngtb. cbn [nltb]. rewrite (proj2 (rltb_false 0 _)); [reflexivity|]. apply r_neg; auto. lra.
Qed.
Lemma roll_pos_nth : forall M, rounding (rnd M) -> forall w l k, (1 <= w)%nat -> (forall j, ipos (rnd M) (nth j l NaN)) -> npos (rnd M) (nth k (r_roll_mean M w l) NaN).
Proof.
  intros M H w l k Hw Hl. destruct (Nat.lt_ge_cases k (length l)) as [L|L]; [rewrite nth_roll_mean by auto; apply roll_mean_pos; auto|].
  rewrite nth_overflow by (unfold r_roll_mean; rewrite map_length, seq_length; auto). left; reflexivity.
Qed.

(** The relative strength index stays in [0, 100] whatever the rounding errors of the running sums; a window without losses gives exactly
    100, one without gains exactly 0 (or missing). *)
Theorem C100_rsi : forall M, rounding (rnd M) -> forall w ts k, (1 <= w)%nat ->
  within 0 100 (nth k (r_rsi M w ts) NaN) /\
  forall price, (w <= k < length ts)%nat -> (forall j, (k - w <= j <= k)%nat -> nth j ts NaN = Fin (price j)) ->
    ((forall j, (k - w <= j < k)%nat -> price j <= price (S j)) -> nth k (r_rsi M w ts) NaN = NaN \/ nth k (r_rsi M w ts) NaN = Fin 100) /\
    ((forall j, (k - w <= j < k)%nat -> price (S j) <= price j) -> nth k (r_rsi M w ts) NaN = NaN \/ nth k (r_rsi M w ts) NaN = Fin 0).
Proof.
  intros M H w ts k Hw. unfold r_rsi. rewrite nth_strength.
  assert (G := roll_pos_nth M H w (r_gains M ts) k Hw (gains_pos M H ts)). assert (L := roll_pos_nth M H w (r_losses M ts) k Hw (losses_pos M H ts)).
  split; [apply strength_range; auto|]. intros price Hk Hp. split; intros Hm.
  - assert (E : nth k (r_roll_mean M w (r_losses M ts)) NaN = Fin 0).
    { rewrite nth_roll_mean by (rewrite len_losses; lia). apply roll_mean_const; auto; [lia|]. intros [|j] Hj; [lia|]. apply (no_loss M H ts j (price j) (price (S j))); [apply Hp; lia|apply Hp; lia|apply Hm; lia]. }
    rewrite E. apply strength_100; auto.
  - assert (E : nth k (r_roll_mean M w (r_gains M ts)) NaN = Fin 0).
    { rewrite nth_roll_mean by (rewrite len_gains; lia). apply roll_mean_const; auto; [lia|]. intros [|j] Hj; [lia|]. apply (no_gain M H ts j (price j) (price (S j))); [apply Hp; lia|apply Hp; lia|apply Hm; lia]. }
    rewrite E. apply strength_0; auto.
Qed.
Print Assumptions C100_rsi.
(** the first change is a loss, the last two are gains: the index of window 2 is exactly 100 *)
Example C100_rsi_case : nth 3 (r_rsi double 2 [Fin 7; Fin 1; Fin 2; Fin 3]) NaN = Fin 100.
Proof.
  destruct (C100_rsi double binary64_rounding 2 [Fin 7; Fin 1; Fin 2; Fin 3] 3) as [_ C]; [lia|].
  destruct (C (fun j => match j with 1%nat => 1 | 2%nat => 2 | _ => 3 end)) as [C1 _].
  - cbn; lia.
  - intros [|[|[|[|j]]]] Hj; try lia; reflexivity.
  - destruct C1 as [C1|C1]; [intros [|[|[|[|j]]]] Hj; try lia; lra| |exact C1]. exfalso. revert C1. unfold r_rsi. rewrite nth_strength.
    rewrite !nth_roll_mean by (rewrite ?len_losses, ?len_gains; cbn; lia). rewrite (roll_mean_const double 2 (r_losses double _) 3 0); [|lia|lia|].
    2: { intros [|[|[|[|j]]]] Hj; try lia; [apply (no_loss double binary64_rounding _ 1 1 2); auto; lra|apply (no_loss double binary64_rounding _ 2 2 3); auto; lra]. }
    rewrite (roll_mean_const double 2 (r_gains double _) 3 1); [|lia|lia|].
    2: { assert (G : forall j p q, nth j [Fin 7; Fin 1; Fin 2; Fin 3] NaN = Fin p -> nth (S j) [Fin 7; Fin 1; Fin 2; Fin 3] NaN = Fin q -> q - p = 1 -> (S j < 4)%nat -> nth (S j) (r_gains double [Fin 7; Fin 1; Fin 2; Fin 3]) NaN = Fin 1).
         { intros j p q Hp Hq E L. unfold r_gains, where0. rewrite nth_map_in by (rewrite len_diff'; cbn; lia). rewrite (diff_step double _ j p q) by auto. rewrite E. assert (I1 : rnd double 1 = 1) by apply (r_1 _ binary64_rounding). rewrite !I1.
           unfold ngtb. cbn [nltb]. rewrite (proj2 (rltb_true 0 1)) by lra. reflexivity. }
         intros [|[|[|[|j]]]] Hj; try lia; [apply (G 1%nat 1 2); auto; lra|apply (G 2%nat 2 3); auto; lra]. }
    unfold r_strength, fmul, fdiv, fadd. cbn [nadd fl rnd double]. rewrite Rplus_0_r, (r_1 _ binary64_rounding). rewrite ndiv_fin by lra. cbn [fl nmul]. discriminate.
Qed.

(** the same for the exponentially weighted index, over the whole history *)
Theorem C100_ewm_rsi : forall M, rounding (rnd M) -> forall a ts k, 0 < a <= 1 ->
  within 0 100 (nth k (r_ewm_rsi M a ts) NaN) /\
  forall price, (k < length ts)%nat -> (forall j, (j <= k)%nat -> nth j ts NaN = Fin (price j)) ->
    ((forall j, (j < k)%nat -> price j <= price (S j)) -> nth k (r_ewm_rsi M a ts) NaN = NaN \/ nth k (r_ewm_rsi M a ts) NaN = Fin 100) /\
    ((forall j, (j < k)%nat -> price (S j) <= price j) -> nth k (r_ewm_rsi M a ts) NaN = NaN \/ nth k (r_ewm_rsi M a ts) NaN = Fin 0).
Proof.
  intros M H a ts k Ha. unfold r_ewm_rsi. rewrite nth_strength. assert (Ha' : 0 <= a <= 1) by lra.
  assert (G := ewm_run_pos M H a (r_gains M ts) (None, 1, 0%nat) k Ha' (ewm_init M) (gains_pos M H ts)). assert (L := ewm_run_pos M H a (r_losses M ts) (None, 1, 0%nat) k Ha' (ewm_init M) (losses_pos M H ts)).
  split; [apply strength_range; auto|]. intros price Hk Hp. split; intros Hm.
  - assert (E : nth k (r_ewm_run M a 0 (None, 1, 0%nat) (r_losses M ts)) NaN = Fin 0).
    { apply ewm_run_const; auto; [rewrite len_losses; auto|]. intros [|j] Hj.
      - unfold r_losses, where0. rewrite nth_map_in by (rewrite len_diff'; lia). rewrite nth_rdiff, nth_shift1. destruct (nth 0 ts NaN); reflexivity.
      - apply (no_loss M H ts j (price j) (price (S j))); [apply Hp; lia|apply Hp; lia|apply Hm; lia]. }
    rewrite E. apply strength_100; auto.
  - assert (E : nth k (r_ewm_run M a 0 (None, 1, 0%nat) (r_gains M ts)) NaN = Fin 0).
    { apply ewm_run_const; auto; [rewrite len_gains; auto|]. intros [|j] Hj.
      - unfold r_gains, where0. rewrite nth_map_in by (rewrite len_diff'; lia). rewrite nth_rdiff, nth_shift1. destruct (nth 0 ts NaN); reflexivity.
      - apply (no_gain M H ts j (price j) (price (S j))); [apply Hp; lia|apply Hp; lia|apply Hm; lia]. }
    rewrite E. apply strength_0; auto.
Qed.
Print Assumptions C100_ewm_rsi.
Example C100_ewm_rsi_case : within 0 100 (nth 2 (r_ewm_rsi double (binary64 (/ 3)) [Fin 1; Fin (/ 2); Fin 4]) NaN).
Proof. apply C100_ewm_rsi; [apply binary64_rounding|]. assert (binary64 (/ 4) <= binary64 (/ 3) <= 1). { split; [apply (r_mono _ binary64_rounding); lra|apply (r_le1 _ binary64_rounding); lra]. }
  assert (binary64 (/ 4) = / 4). { replace (/ 4) with (IZR 1 * bpow radix2 (-2)) by (cbn; lra). apply held_ze; [reflexivity|lia]. } lra. Qed.

(** ** bands, ranges, spread *)
Theorem C100_bands : forall M, rounding (rnd M) -> forall b i m s k, nth i (b_mean b) NaN = Fin m -> held (rnd M) m -> nth i (b_std b) NaN = Fin s -> 0 <= s -> b_mult b = Fin k -> 0 <= k ->
  exists lo up, nth i (r_lower M b) NaN = Fin lo /\ nth i (r_upper M b) NaN = Fin up /\ lo <= m <= up.
Proof.
  intros M H b i m s k Em Hm Es Hs Ek Hk. assert (P : 0 <= rnd M (s * k)) by (apply r_pos; auto; apply Rmult_le_pos; auto).
  assert (Ni : nth i (map (fun x => fmul M x (b_mult b)) (b_std b)) NaN = Fin (rnd M (s * k))).
  { destruct (Nat.lt_ge_cases i (length (b_std b))) as [L|L]; [rewrite nth_map_in by auto; rewrite Es, Ek; reflexivity|rewrite nth_overflow in Es by auto; discriminate]. }
  exists (rnd M (m - rnd M (s * k))), (rnd M (m + rnd M (s * k))). unfold r_lower, r_upper. rewrite !nth_lift2 by reflexivity. rewrite Ni, Em.
  split; [reflexivity|]. split; [reflexivity|]. split; [apply r_le_held; auto; lra|apply r_ge_held; auto; lra].
Qed.
Print Assumptions C100_bands.
Example C100_bands_case : exists lo up, nth 0 (r_lower double (mkBands [Fin 5] [Fin 1] [Fin (/ 3)] (Fin 2))) NaN = Fin lo /\ nth 0 (r_upper double (mkBands [Fin 5] [Fin 1] [Fin (/ 3)] (Fin 2))) NaN = Fin up /\ lo <= 1 <= up.
Proof. apply (C100_bands double binary64_rounding _ 0 1 (/ 3) 2); auto; try lra. apply (r_1 _ binary64_rounding). Qed.

Definition finite_or_missing (l : list num) : Prop := forall i, nth i l NaN = NaN \/ exists a, nth i l NaN = Fin a.
Lemma tr_pos : forall M, rounding (rnd M) -> forall high low close i, finite_or_missing high -> finite_or_missing low -> finite_or_missing close ->
  (forall i h l, nth i high NaN = Fin h -> nth i low NaN = Fin l -> l <= h) -> npos (rnd M) (nth i (r_true_range M high low close) NaN).
Proof.
  intros M H high low close i Fh Fl Fc Hhl. unfold r_true_range. set (n := Nat.max _ _). destruct (Nat.lt_ge_cases i n) as [L|L].
  - rewrite nth_seq_map' by auto. rewrite nth_lift2 by reflexivity. rewrite !nth_map_nan by reflexivity. rewrite !nth_lift2 by reflexivity.
    assert (Fs : nth i (shift 1 close) NaN = NaN \/ exists a, nth i (shift 1 close) NaN = Fin a).
    { rewrite nth_shift1. destruct i as [|j]; [left; reflexivity|]. destruct (Nat.ltb _ _); [apply Fc|left; reflexivity]. }
    assert (A : npos (rnd M) (fsub M (nth i high NaN) (nth i low NaN))).
    { destruct (Fh i) as [E1|[h E1]], (Fl i) as [E2|[l E2]]; rewrite E1, E2; try (left; reflexivity). right. eexists. split; [reflexivity|]. split; [apply r_pos; auto; generalize (Hhl i h l E1 E2); lra|apply (r_idem _ H)]. }
    assert (B : forall x y, (x = NaN \/ exists a, x = Fin a) -> (y = NaN \/ exists a, y = Fin a) -> npos (rnd M) (nabs (fsub M x y))).
    { intros x y [->|[u ->]] [->|[v ->]]; try (left; reflexivity). right. eexists. split; [reflexivity|]. split; [apply Rabs_pos|apply held_abs; auto; apply (r_idem _ H)]. }
    assert (Mx : forall x y, npos (rnd M) x -> npos (rnd M) y -> npos (rnd M) (match x, y with NaN, c => c | c, NaN => c | _, _ => if nltb x y then y else x end)).
    { intros x y [->|[u [-> Hu]]] [->|[v [-> Hv]]]; try (left; reflexivity); try (right; eexists; split; [reflexivity|assumption]).
      destruct (nltb (Fin u) (Fin v)); right; eexists; split; try reflexivity; assumption. }
    unfold row_max. apply Mx; [apply Mx; [exact A|apply B; auto]|apply B; auto].
  - rewrite nth_overflow by (rewrite map_length, seq_length; auto). left; reflexivity.
Qed.
Theorem C100_ranges : forall M, rounding (rnd M) -> forall high low close a i, finite_or_missing high -> finite_or_missing low -> finite_or_missing close ->
  (forall i h l, nth i high NaN = Fin h -> nth i low NaN = Fin l -> l <= h) -> 0 < a <= 1 ->
  nonneg (nth i (r_true_range M high low close) NaN) /\ nonneg (nth i (r_average_true_range M high low close a) NaN).
Proof.
  intros M H high low close a i Fh Fl Fc Hhl Ha. assert (P := tr_pos M H high low close). assert (W : forall x, npos (rnd M) x -> nonneg x) by (intros x [->|[u [-> [Hu _]]]]; [left; reflexivity|right; exists u; auto]).
  split; apply W; [apply P; auto|]. unfold r_average_true_range. apply ewm_run_pos; auto; [lra|apply ewm_init|]. intros j u Eu. destruct (P j Fh Fl Fc Hhl) as [E|[v [E Hv]]]; rewrite E in Eu; [discriminate|]. injection Eu as <-. exact Hv.
Qed.
Print Assumptions C100_ranges.
Example C100_ranges_case : nonneg (nth 1 (r_average_true_range double [Fin 3; Fin 5] [Fin 2; Fin 4] [Fin 2; Fin 4] (/ 2)) NaN).
Proof.
  apply (C100_ranges double binary64_rounding); try lra; try (intros [|[|i]]; cbn; eauto; destruct i; auto).
  intros [|[|i]] h l Eh El; cbn in Eh, El; [| |destruct i; discriminate]; injection Eh as <-; injection El as <-; lra.
Qed.

Theorem C100_spread : forall M, rounding (rnd M) -> (forall x, 0 <= x -> 1 <= m_exp M x) -> m_exp M 0 = 1 ->
  forall x, within 0 2 (r_spread M (clip0 x)) /\ (nltb (Fin 0) x = false -> x <> NaN -> r_spread M (clip0 x) = Fin 0).
Proof.
  intros M H He E0 x. assert (F : forall a, 0 <= a -> within 0 2 (r_spread M (Fin a)) /\ (a = 0 -> r_spread M (Fin a) = Fin 0)).
  { intros a Ha. unfold r_spread, fexp, fdiv, fmul, fsub, fadd. rewrite nsub_fin. cbn [fl nmul nadd]. set (e := m_exp M a). assert (1 <= e) by (apply He; auto).
    assert (D : rnd M (2 * rnd M (e - 1)) = 2 * rnd M (e - 1)) by (apply (r_double _ H); apply (r_idem _ H)). rewrite D.
    assert (P : 0 <= rnd M (e - 1)) by (apply r_pos; auto; lra). assert (Q : rnd M (e - 1) <= rnd M (e + 1)) by (apply (r_mono _ H); lra). assert (T : 1 <= rnd M (e + 1)) by (apply r_ge1; auto; lra).
    rewrite ndiv_fin by lra. cbn [fl]. split.
    - right. eexists. split; [reflexivity|]. split; [apply r_pos; auto; apply Rmult_le_pos; [lra|left; apply Rinv_0_lt_compat; lra]|].
      apply r_le_held; [auto|apply (r_2 _ H)|]. apply Rmult_le_reg_r with (rnd M (e + 1)); [lra|]. unfold Rdiv. rewrite Rmult_assoc, Rinv_l by lra. lra.
    - intros ->. unfold e in *. rewrite E0 in *. replace (1 - 1) with 0 in * by lra. rewrite (r_0 _ H). replace (2 * 0 / rnd M (1 + 1)) with 0 by (field; lra). rewrite (r_0 _ H). reflexivity. }
  destruct x as [a| | |]; unfold clip0; cbn [nltb].
  - destruct (rltb a 0) eqn:E; [destruct (F 0 ltac:(lra)) as [F1 F2]; auto|]. apply rltb_false in E. destruct (F a E) as [F1 F2]. split; [exact F1|]. intros Ha _. apply rltb_false in Ha. apply F2. lra.
  - split; [left; reflexivity|congruence].
  - split; [left; unfold r_spread, fdiv, fmul; cbn; unfold sgn_inf; rewrite (proj2 (rltb_true 0 2)) by lra; reflexivity|discriminate].
  - destruct (F 0 ltac:(lra)) as [F1 F2]; auto.
Qed.
Print Assumptions C100_spread.
Example C100_spread_case : forall x, within 0 2 (r_spread double (clip0 x)).
Proof.
  intros x. apply (C100_spread double binary64_rounding).
  - intros y Hy. cbn [m_exp double]. apply (r_ge1 _ binary64_rounding). destruct Hy as [Hy|<-]; [generalize (exp_ineq1 y ltac:(lra)); lra|rewrite exp_0; lra].
  - cbn [m_exp double]. rewrite exp_0. apply (r_1 _ binary64_rounding).
Qed.

(** ** simulated paths *)
(** In any arithmetic a Brownian motion and an Ornstein-Uhlenbeck path start exactly at x0, and a longer simulation with the same seed
    begins with the shorter one. *)
Theorem C100_paths : forall M m o z x0 dt steps steps' paths,
  (forall a, r_bm_path M m z x0 dt steps paths = Ok a -> nrow a = S steps /\
     (forall c, at2 a 0 c = nth (c mod length x0) x0 NaN) /\
     forall a', r_bm_path M m z x0 dt steps' paths = Ok a' -> ncol a' = ncol a /\ forall t c, at2 a' t c = at2 a t c) /\
  (forall a, r_ou_path M o z x0 dt steps paths = Ok a -> nrow a = S steps /\
     (forall c, at2 a 0 c = nth (c mod length x0) x0 NaN) /\
     forall a', r_ou_path M o z x0 dt steps' paths = Ok a' -> ncol a' = ncol a /\ forall t c, at2 a' t c = at2 a t c).
Proof.
  intros M m o z x0 dt steps steps' paths. assert (X : forall C f, set_x0 x0 C = Ok f -> forall c, f c = nth (c mod length x0) x0 NaN).
  { intros C f. unfold set_x0. destruct x0; [discriminate|]. destruct (Nat.eqb _ _); [|discriminate]. intros E. injection E as <-. reflexivity. }
  split; intros a.
  - unfold r_bm_path. destruct (set_x0 x0 _) as [f|] eqn:Ef; [|discriminate]. cbn [bind]. destruct (Nat.eqb _ 0); [discriminate|]. destruct (r_fill_noise _ _ _ _ _) as [dx|]; [|discriminate]. cbn [bind].
    intros E. injection E as <-. cbn [nrow ncol at2]. split; [reflexivity|]. split; [intros c; cbn [r_cumsum filled]; eapply X; eauto|]. intros a' E. injection E as <-. split; reflexivity.
  - unfold r_ou_path. destruct (r_ou_mean_term M o dt); [|discriminate]. cbn [bind]. destruct (r_ou_scale M o dt); [|discriminate]. cbn [bind]. destruct (ou_mean o); [discriminate|].
    destruct (set_x0 x0 _) as [f|] eqn:Ef; [|discriminate]. cbn [bind]. destruct (Nat.eqb _ 0); [discriminate|]. destruct (r_fill_noise _ _ _ _ _) as [dx|]; [|discriminate]. cbn [bind].
    destruct (Nat.eqb steps 0 || _); [|discriminate].
    intros E. injection E as <-. cbn [nrow ncol at2]. split; [reflexivity|]. split; [intros c; cbn [r_ou_run filled]; eapply X; eauto|].
    intros a'. destruct (Nat.eqb steps' 0 || _); [|discriminate]. intros E. injection E as <-. split; reflexivity.
Qed.
Print Assumptions C100_paths.
Example C100_paths_case : exists a, r_bm_path double (mkBM [Fin 1] [Fin 2] None None) (fun _ => Fin (/ 3)) [Fin 5] (Fin (/ 7)) 4 2 = Ok a /\ at2 a 0 1 = Fin 5.
Proof. eexists. split; reflexivity. Qed.

(** A geometric Brownian motion starts at exp(log x0).  In double precision this is not x0 in general: near 100 there are more numbers than
    correctly rounded logarithms, so whatever the exponential function, some start value is not reproduced. *)
Theorem C100_gbm_start_refuted : forall E : R -> R, exists x0, 0 < x0 /\ held binary64 x0 /\
  forall m z dt steps paths a, r_gbm_path (mkMachine binary64 E (fun x => binary64 (ln x))) m z [Fin x0] dt steps paths = Ok a -> at2 a 0 0 <> Fin x0.
Proof.
  intros E. destruct log_collision as (Ha & Hb & Hc & Hlt & Col). set (a := 100) in *. set (b := a + bpow radix2 (-46)) in *. set (c := a + bpow radix2 (-45)) in *.
  set (M := mkMachine binary64 E (fun x => binary64 (ln x))).
  assert (St : forall x m z dt steps paths arr, 0 < x -> r_gbm_path M m z [Fin x] dt steps paths = Ok arr -> at2 arr 0 0 = Fin (E (binary64 (ln x)))).
  { intros x m z dt steps paths arr Hx. unfold r_gbm_path. cbn [map length]. unfold set_x0. cbn [length]. destruct (Nat.eqb _ _); [|discriminate]. cbn [bind]. destruct (Nat.eqb _ 0); [discriminate|].
    destruct (r_gbm_mean M m); [|discriminate]. cbn [bind]. destruct (r_fill_noise _ _ _ _ _); [|discriminate]. cbn [bind]. intros Q. injection Q as <-. cbn [at2 r_cumsum filled Nat.modulo Nat.divmod fst Nat.sub nth].
    unfold flog. rewrite (proj2 (rltb_true 0 x) Hx). reflexivity. }
  assert (A0 : 0 < a) by (unfold a; lra).
  assert (K : exists x, (x = a \/ x = b \/ x = c) /\ E (binary64 (ln x)) <> x).
  { destruct Col as [Q|Q].
    - destruct (Req_dec (E (binary64 (ln a))) a) as [Ea|Ea]; [exists b; split; auto; rewrite <- Q, Ea; lra|exists a; auto].
    - destruct (Req_dec (E (binary64 (ln b))) b) as [Ea|Ea]; [exists c; split; auto; rewrite <- Q, Ea; lra|exists b; auto]. }
  destruct K as [x [Hx Kx]]. exists x. assert (0 < x) by (destruct Hx as [->|[->| ->]]; lra). split; [auto|]. split; [destruct Hx as [->|[->| ->]]; auto|].
  intros m z dt steps paths arr Q. rewrite (St x m z dt steps paths arr) by auto. intros Q'. injection Q' as Q'. contradiction.
Qed.
Print Assumptions C100_gbm_start_refuted.
Example C100_gbm_start_case : forall x, exists a, r_gbm_path double (mkBM [Fin 1] [Fin 2] None None) (fun _ => Fin (/ 3)) [Fin x] (Fin (/ 7)) 4 2 = Ok a.
Proof. intros x. eexists. reflexivity. Qed.

(** What does hold: it starts at the rounded exponential of the rounded logarithm, and values are never negative. *)
Theorem C100_gbm : forall M m z x0 dt steps paths a, (forall x, 0 <= m_exp M x) -> r_gbm_path M m z x0 dt steps paths = Ok a ->
  (forall c, at2 a 0 c = fexp M (nth (c mod length x0) (map (flog M) x0) NaN)) /\
  forall t c v, at2 a t c = Fin v -> 0 <= v.
Proof.
  intros M m z x0 dt steps paths a He. unfold r_gbm_path. unfold set_x0. destruct x0 as [|x x0]; [discriminate|]. cbn [map]. destruct (Nat.eqb _ _); [|discriminate]. cbn [bind]. destruct (Nat.eqb _ 0); [discriminate|].
  destruct (r_gbm_mean M m); [|discriminate]. cbn [bind]. destruct (r_fill_noise _ _ _ _ _); [|discriminate]. cbn [bind]. intros Q. injection Q as <-. cbn [at2]. split.
  - intros c. cbn [r_cumsum filled]. cbn [length]. rewrite map_length. reflexivity.
  - intros t c v. unfold fexp. destruct (r_cumsum _ _ t c) as [u| | |]; cbn [nexp]; intros Q; try discriminate; injection Q as <-; [apply He|lra].
Qed.
Print Assumptions C100_gbm.
Example C100_gbm_case : exists a, r_gbm_path double (mkBM [Fin 1] [Fin 2] None None) (fun _ => Fin (/ 3)) [Fin 3] (Fin (/ 7)) 4 2 = Ok a /\ at2 a 0 0 = Fin (binary64 (exp (binary64 (ln 3)))).
Proof. eexists. split; [reflexivity|]. cbn [at2 r_cumsum filled]. cbn. unfold flog. rewrite (proj2 (rltb_true 0 3)) by lra. reflexivity. Qed.

(** Strict positivity, which holds for exact numbers, is lost by underflow: a path from 1 can reach 0. *)
Theorem C100_gbm_positive_refuted : exists m z x0 dt a, r_gbm_path double m z [Fin x0] dt 1 1 = Ok a /\ 0 < x0 /\ at2 a 1 0 = Fin 0 /\
  (exists b v, r_gbm_path exact m z [Fin x0] dt 1 1 = Ok b /\ at2 b 1 0 = Fin v /\ 0 < v).
Proof.
  exists (mkBM [Fin (-2000)] [Fin 0] None None), (fun _ => Fin 0), 1, (Fin 1). eexists. split; [reflexivity|]. split; [lra|].
  assert (I0 : binary64 0 = 0) by (apply (r_0 _ binary64_rounding)). assert (I1 : binary64 1 = 1) by apply (r_1 _ binary64_rounding). assert (I2 : binary64 (-2000) = -2000) by (apply held_z; reflexivity).
  split.
  - cbn [at2 r_cumsum filled bm_drift bm_vol length map Nat.mul Nat.div Nat.modulo Nat.divmod fst snd Nat.add Nat.sub nth bget Nat.eqb flog].
    rewrite (proj2 (rltb_true 0 1)) by lra. cbn [m_log double]. rewrite ln_1, I0.
    unfold bget. cbn [length Nat.eqb nth seq map]. unfold fsqr, fsqrt, fmul, fsub, fadd. cbn [nmul fl rnd double nadd]. rewrite !nsub_fin. cbn [fl nmul rnd double nadd].
    rewrite nsqrt_fin by lra. cbn [fl rnd double nmul nadd].
    replace (0 * 0) with 0 by lra. rewrite I0. replace (1 / 2 * 0) with 0 by lra. rewrite I0. replace (-2000 - 0) with (-2000) by lra. rewrite I2. replace (-2000 * 1) with (-2000) by lra. rewrite I2.
    rewrite sqrt_1, I1. replace (0 * 1) with 0 by lra. rewrite I0. replace (0 * 0) with 0 by lra. rewrite I0. replace (0 + -2000) with (-2000) by lra. rewrite I2. replace (0 + -2000) with (-2000) by lra. rewrite I2.
    unfold fexp. cbn [m_exp double]. f_equal. apply underflow. rewrite Rabs_pos_eq by (left; apply exp_pos).
    assert (G : forall n, exp (- INR n) <= / 2 ^ n). { induction n as [|n IH]; [cbn; rewrite Ropp_0, exp_0; lra|]. rewrite S_INR. replace (- (INR n + 1)) with (- INR n + - (1)) by lra. rewrite exp_plus.
      cbn [pow]. rewrite Rinv_mult. rewrite Rmult_comm. apply Rmult_le_compat; auto; try (left; apply exp_pos). rewrite exp_Ropp. apply Rinv_le_contravar; [lra|]. generalize (exp_ineq1 1 ltac:(lra)). lra. }
    specialize (G 2000%nat). replace (INR 2000) with 2000 in G by (rewrite INR_IZR_INZ; reflexivity). apply Rle_lt_trans with (/ 2 ^ 2000); [exact G|].
    replace (/ 2 ^ 2000) with (bpow radix2 (-2000)); [apply bpow_lt; lia|]. change (-2000)%Z with (- (2000))%Z. rewrite bpow_opp. f_equal. rewrite <- (IZR_Zpower radix2) by lia. change 2000%Z with (Z.of_nat 2000). rewrite <- pow_IZR. reflexivity.
  - eexists. eexists. split; [reflexivity|].
    cbn [at2 r_cumsum filled bm_drift bm_vol length map Nat.mul Nat.div Nat.modulo Nat.divmod fst snd Nat.add Nat.sub nth bget Nat.eqb flog].
    rewrite (proj2 (rltb_true 0 1)) by lra. unfold bget. cbn [length Nat.eqb nth seq map]. unfold fsqr, fsqrt, fmul, fsub, fadd. cbn [nmul fl nadd]. rewrite !nsub_fin. cbn [fl nmul nadd].
    rewrite nsqrt_fin by lra. cbn [fl nmul nadd]. unfold fexp. cbn [m_exp exact]. split; [reflexivity|]. apply exp_pos.
Qed.
Print Assumptions C100_gbm_positive_refuted.
