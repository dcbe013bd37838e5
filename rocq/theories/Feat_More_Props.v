(** C91: what the bands show and how they move with the prices; C92: momentum. *)
From Coq Require Import Reals Lra Psatz ZArith List Arith Bool Lia.
From Verif Require Import Base Num Sums Feat_Ops Feat_Spec Feat_Proofs Ewm_Proofs Feat_Model Feat_Causal_Props Feat_Avg_Props Feat_Band_Props.
Import ListNotations.
Open Scope R_scope.

(** ** C91 *)
(** every row of bands around [mid] with half-width k times [width], for the prices [price] *)
Definition band_rows (price mid width : list num) (k : R) (b : bands) : Prop := forall i,
  nth i (middle b) NaN = nth i mid NaN
  /\ (forall m s, nth i mid NaN = Fin m -> nth i width NaN = Fin s ->
        nth i (upper b) NaN = Fin (m + k * s) /\ nth i (lower b) NaN = Fin (m - k * s)
        /\ (m <> 0 -> nth i (bandwidth b) NaN = Fin (2 * (k * s) / m))
        /\ (forall p, nth i price NaN = Fin p -> k * s <> 0 -> nth i (percent_b b) NaN = Fin ((p - (m - k * s)) / (2 * (k * s)))))
  /\ (nth i mid NaN = NaN \/ nth i width NaN = NaN ->
        nth i (upper b) NaN = NaN /\ nth i (lower b) NaN = NaN /\ nth i (bandwidth b) NaN = NaN /\ nth i (percent_b b) NaN = NaN)
  /\ (nth i price NaN = NaN -> nth i (percent_b b) NaN = NaN).
Lemma mkBands_rows : forall price mid width k, band_rows price mid width k (mkBands price mid width (Fin k)).
Proof.
  intros price mid width k i. unfold percent_b, bandwidth, middle, upper, lower. cbn [b_ts b_mean b_std b_mult].
  repeat first [rewrite nth_lift2 by reflexivity | rewrite nth_map_nan by reflexivity].
  split; [reflexivity|]. split; [|split].
  - intros m s -> ->. unfold nsub. cbn [nmul nadd nneg]. split; [f_equal; ring|]. split; [f_equal; ring|]. split.
    + intros M. rewrite ndiv_fin by auto. f_equal. f_equal. ring.
    + intros p -> K. cbn [nadd]. rewrite ndiv_fin by lra. f_equal. f_equal; ring.
  - assert (D : forall x, nadd NaN x = NaN) by reflexivity. intros [->| ->]; unfold nsub; rewrite ?nmul_nan_r, ?nmul_nan_l; cbn [nneg]; rewrite ?D, ?nadd_nan_r; cbn [nneg]; rewrite ?D, ?nadd_nan_r, ?ndiv_nan_r, ?ndiv_nan_l; auto.
  - intros ->. unfold nsub. cbn [nadd]. apply ndiv_nan_l.
Qed.
(** Bollinger bands are centred at the rolling mean with the rolling standard deviation as width, the exponential ones at the
    exponentially weighted mean with the exponentially weighted standard deviation, and Keltner bands at the exponentially weighted mean
    of the close with the average true range; percent_b refers to the series, for Keltner bands to the close *)
Theorem C91_what_the_bands_show : forall ts high low close (w wa : Z) span k,
  (forall mid width, rolling_mean ts w = Ok mid -> rolling_std ts w = Ok width -> exists b, BollingerBands ts w (Fin k) = Ok b /\ band_rows ts mid width k b)
  /\ (forall mid width, ewm_mean ts span = Ok mid -> ewm_std ts span = Ok width -> exists b, EwmBollingerBands ts span (Fin k) = Ok b /\ band_rows ts mid width k b)
  /\ (forall mid width, ewm_mean close span = Ok mid -> average_true_range high low close wa = Ok width ->
        exists b, KeltnerBands high low close wa span (Fin k) = Ok b /\ band_rows close mid width k b).
Proof.
  intros ts high low close w wa span k. split; [|split]; intros mid width E1 E2; eexists; (split; [|apply mkBands_rows]);
    [unfold BollingerBands|unfold EwmBollingerBands|unfold KeltnerBands]; rewrite E1, E2; reflexivity.
Qed.
(** spelled out for Bollinger bands on a full window of numbers *)
Theorem C91_bollinger : forall ts (w : nat) k i v, (2 <= w)%nat -> (i < length ts)%nat -> window_is ts w i v ->
  exists b m s, BollingerBands ts (Z.of_nat w) (Fin k) = Ok b
    /\ m * INR w = rsum v /\ 0 <= s /\ s * s * INR (w - 1) = rsum (map (fun x => (x - m) * (x - m)) v)
    /\ nth i (middle b) NaN = Fin m /\ nth i (upper b) NaN = Fin (m + k * s) /\ nth i (lower b) NaN = Fin (m - k * s)
    /\ (m <> 0 -> nth i (bandwidth b) NaN = Fin (2 * (k * s) / m))
    /\ (k * s <> 0 -> nth i (percent_b b) NaN = Fin ((last v 0 - (m - k * s)) / (2 * (k * s)))).
Proof.
  intros ts w k i v Hw Hi Hv. destruct (C55_rolling ts w ltac:(lia)) as (mean & std & mx & mn & E1 & E2 & _ & _ & H).
  destruct (proj1 (C91_what_the_bands_show ts [] [] [] (Z.of_nat w) 1 1 k) mean std E1 E2) as (b & EB & HB).
  destruct (H i Hi) as [(v' & m & lo & hi & W & Em & _ & _ & Hm & _ & _ & _ & _ & _ & Hs)|[N _]]; [|exfalso; apply (N v); auto].
  rewrite (window_unique _ _ _ _ _ W Hv) in *. clear v' W. destruct (Hs Hw) as (s & Es & S0 & S1 & _).
  destruct (HB i) as (B1 & B2 & _). destruct (B2 m s Em Es) as (U & L & BW & P). exists b, m, s.
  split; [auto|]. split; [auto|]. split; [auto|]. split; [auto|]. split; [rewrite B1; auto|]. split; [auto|]. split; [auto|]. split; [auto|].
  intros K. apply P; auto. destruct Hv as (V1 & V2 & V3). replace i with (S i - w + (w - 1))%nat at 1 by lia. rewrite V3 by lia. f_equal.
  rewrite <- V2 in *. clear - Hw. destruct v as [|x v] using rev_ind; [cbn in Hw; lia|]. rewrite last_last, app_length. cbn [length]. rewrite app_nth2 by lia. replace (_ - _ - _)%nat with 0%nat by lia. reflexivity.
Qed.
(** the exact arguments that are rejected, and the error *)
Theorem C91_bad_windows : forall ts high low close (w wa : Z) span k,
  ((0 <= w)%Z -> (exists b, BollingerBands ts w (Fin k) = Ok b) /\ (exists b, DonchianBands ts w = Ok b))
  /\ ((w < 0)%Z -> BollingerBands ts w (Fin k) = Raise ValueError /\ DonchianBands ts w = Raise ValueError)
  /\ (1 <= span -> exists b, EwmBollingerBands ts span (Fin k) = Ok b)
  /\ (span < 1 -> EwmBollingerBands ts span (Fin k) = Raise ValueError /\ KeltnerBands high low close wa span (Fin k) = Raise ValueError)
  /\ (1 <= span -> (1 <= wa)%Z -> exists b, KeltnerBands high low close wa span (Fin k) = Ok b)
  /\ (1 <= span -> (wa < 0)%Z -> KeltnerBands high low close wa span (Fin k) = Raise ValueError)
  /\ (1 <= span -> KeltnerBands high low close 0 span (Fin k) = Raise ZeroDivisionError).
Proof.
  intros ts high low close w wa span k.
  assert (SP : forall l, 1 <= span -> ewm_mean l span = Ok (ewm_run (2 / (span + 1)) 0 init_e l)) by (intros; apply ewm_span_ok; auto).
  split; [|split; [|split; [|split; [|split; [|split]]]]].
  - intros H. unfold BollingerBands, DonchianBands, rolling_mean, rolling_std, rolling_max, rolling_min. rewrite !rolling_ok by auto. cbn [bind]. split; eexists; reflexivity.
  - intros H. unfold BollingerBands, DonchianBands, rolling_mean, rolling_max, rolling. rewrite (proj2 (Z.ltb_lt _ _) H). split; reflexivity.
  - intros H. unfold EwmBollingerBands. rewrite SP by auto. cbn [bind]. unfold ewm_std, ewm_std_span, rltb. destruct (Rlt_dec span 1); [lra|]. eexists. reflexivity.
  - intros H. unfold EwmBollingerBands, KeltnerBands. rewrite !C56_span_below_one by auto. split; reflexivity.
  - intros H HW. unfold KeltnerBands. rewrite SP by auto. cbn [bind]. unfold average_true_range. destruct (Z.eqb_spec wa 0); [lia|]. assert (P : 1 <= IZR wa) by (apply (IZR_le 1); auto).
    unfold ewm_alpha, rltb, rleb. assert (0 < 1 / IZR wa) by (apply Rdiv_lt_0_compat; lra). assert (1 / IZR wa <= 1) by (apply (Rmult_le_reg_r (IZR wa)); [lra|]; unfold Rdiv; rewrite Rmult_assoc, Rinv_l by lra; lra).
    destruct (Rlt_dec 0 (1 / IZR wa)); [|lra]. destruct (Rle_dec (1 / IZR wa) 1); [|lra]. eexists. reflexivity.
  - intros H HW. unfold KeltnerBands. rewrite SP by auto. cbn [bind]. rewrite (proj1 (C60_bad_windows high low close wa HW)). reflexivity.
  - intros H. unfold KeltnerBands. rewrite SP by auto. reflexivity.
Qed.

(** *** prices in another unit, or shifted: x becomes b*x+c *)
Definition moved (b c : R) (l : list num) : list num := map (fun x => nadd (nmul (Fin b) x) (Fin c)) l.
Definition bands_move (b c : R) (B B' : bands) : Prop :=
  upper B' = moved b c (upper B) /\ lower B' = moved b c (lower B) /\ middle B' = moved b c (middle B)
  /\ percent_b B' = percent_b B /\ (c = 0 -> bandwidth B' = bandwidth B).
Lemma ndiv_scale : forall b x y, 0 < b -> ndiv (nmul (Fin b) x) (nmul (Fin b) (Fin y)) = ndiv x (Fin y).
Proof.
  intros b x y Hb. assert (S1 : sgn_inf b true = PInf) by (unfold sgn_inf, rltb; destruct (Rlt_dec 0 b); [reflexivity|lra]). assert (S2 : sgn_inf b false = NInf) by (unfold sgn_inf, rltb; destruct (Rlt_dec 0 b); [reflexivity|lra]).
  destruct x as [x| | |]; cbn [nmul]; rewrite ?S1, ?S2; cbn [ndiv].
  - unfold reqb. destruct (Req_EM_T (b * y) 0) as [E|E], (Req_EM_T y 0) as [E'|E']; try (exfalso; nra).
    + unfold sgn_inf, rltb. destruct (Rlt_dec 0 (b * x)), (Rlt_dec 0 x); try (exfalso; nra); try reflexivity. destruct (Rlt_dec (b * x) 0), (Rlt_dec x 0); try (exfalso; nra); reflexivity.
    + f_equal. field. lra.
  - reflexivity.
  - unfold rltb. destruct (Rlt_dec (b * y) 0), (Rlt_dec y 0); try (exfalso; nra); reflexivity.
  - unfold rltb. destruct (Rlt_dec (b * y) 0), (Rlt_dec y 0); try (exfalso; nra); reflexivity.
Qed.
Lemma mkBands_move : forall b c ts mid width k, 0 < b -> length mid = length ts -> length width = length ts -> (forall i, fin_or_nan (nth i mid NaN)) -> (forall i, fin_or_nan (nth i width NaN)) ->
  bands_move b c (mkBands ts mid width (Fin k)) (mkBands (map (naff b c) ts) (map (naff b c) mid) (map (nmul (Fin b)) width) (Fin k)).
Proof.
  intros b c ts mid width k Hb L1 L2 Hm Hw. unfold bands_move, moved. change (fun x => nadd (nmul (Fin b) x) (Fin c)) with (naff b c). unfold percent_b, bandwidth, middle, upper, lower. cbn [b_ts b_mean b_std b_mult].
  assert (LO : forall i, nsub (nth i (map (naff b c) mid) NaN) (nth i (map (fun s => nmul s (Fin k)) (map (nmul (Fin b)) width)) NaN) = naff b c (nsub (nth i mid NaN) (nth i (map (fun s => nmul s (Fin k)) width) NaN))).
  { intros i. rewrite !nth_map_nan by reflexivity. destruct (Hm i) as [->|(m & ->)]; [reflexivity|]. destruct (Hw i) as [->|(s & ->)]; [reflexivity|]. unfold naff, nsub. cbn [nmul nadd nneg]. f_equal. ring. }
  split; [|split; [|split; [|split]]].
  - apply list_ext; [rewrite map_length, !len_lift2, !map_length; lia|]. intros i Hi. rewrite nth_map_nan by reflexivity. rewrite !nth_lift2 by reflexivity. rewrite !nth_map_nan by reflexivity.
    destruct (Hm i) as [->|(m & ->)]; [reflexivity|]. destruct (Hw i) as [->|(s & ->)]; [reflexivity|]. unfold naff. cbn [nmul nadd]. f_equal. ring.
  - apply list_ext; [rewrite map_length, !len_lift2, !map_length; lia|]. intros i Hi. rewrite nth_map_nan by reflexivity. rewrite !nth_lift2 by reflexivity. apply LO.
  - reflexivity.
  - apply list_ext; [repeat rewrite ?len_lift2, ?map_length; lia|]. intros i Hi. rewrite !nth_lift2 by reflexivity. rewrite !LO. rewrite !nth_map_nan by reflexivity. rewrite naff_sub by auto.
    destruct (Hw i) as [->|(s & ->)]; [cbn [nmul]; rewrite !ndiv_nan_r; reflexivity|]. cbn [nmul]. rewrite <- (ndiv_scale b _ (2 * s * k)) by auto. cbn [nmul]. do 2 f_equal. ring.
  - intros ->. apply list_ext; [rewrite !len_lift2, !map_length; lia|]. intros i Hi. rewrite !nth_lift2 by reflexivity. rewrite !nth_map_nan by reflexivity. rewrite scale_is_aff.
    destruct (Hm i) as [->|(m & ->)]; [cbn [nmul]; rewrite !ndiv_nan_r; reflexivity|]. rewrite <- (ndiv_scale b _ m) by auto. f_equal. destruct (Hw i) as [->|(s & ->)]; [reflexivity|]. cbn [nmul]. f_equal. ring.
Qed.
Lemma finite_aff : forall b c l, finite (map (naff b c) l) = option_map (map (fun x => b * x + c)) (finite l).
Proof.
  intros b c l. induction l as [|x l IH]; [reflexivity|]. destruct x; cbn [map]; unfold naff at 1; cbn [nmul nadd finite]; try reflexivity; [rewrite IH; destruct (finite l); reflexivity| |];
    unfold sgn_inf; destruct (rltb 0 b), (rltb b 0); reflexivity.
Qed.
Lemma roll_aff : forall w (agg : list R -> num) g l b c, (forall v, agg (map (fun x => b * x + c) v) = g (agg v)) -> g NaN = NaN -> roll w agg (map (naff b c) l) = map g (roll w agg l).
Proof.
  intros w agg g l b c H HN. unfold roll. rewrite map_length, map_map. apply map_ext. intros i. unfold roll_at. destruct (Nat.ltb _ _); [auto|].
  rewrite firstn_map, skipn_map, finite_aff. destruct (finite _) as [v|]; cbn [option_map]; auto.
Qed.
Lemma rsum_aff : forall b c v, rsum (map (fun x => b * x + c) v) = b * rsum v + INR (length v) * c.
Proof. intros b c v. induction v as [|x v IH]; [cbn; ring|]. change (b * x + c + rsum (map (fun x => b * x + c) v) = b * (x + rsum v) + INR (S (length v)) * c). rewrite IH, S_INR. ring. Qed.
Lemma rmean_aff : forall b c v, v <> [] -> rmean (map (fun x => b * x + c) v) = b * rmean v + c.
Proof. intros b c v H. unfold rmean. rewrite rsum_aff, map_length. assert (0 < INR (length v)) by (apply lt_0_INR; destruct v; [congruence|cbn; lia]). field. lra. Qed.
Lemma agg_mean_aff : forall b c v, agg_mean (map (fun x => b * x + c) v) = naff b c (agg_mean v).
Proof. intros b c [|x v]; [cbn [map]; rewrite agg_mean_nil; reflexivity|]. rewrite !agg_mean_fin by discriminate. rewrite rmean_aff by discriminate. reflexivity. Qed.
Lemma agg_std_aff : forall b c v, 0 < b -> agg_std (map (fun x => b * x + c) v) = nmul (Fin b) (agg_std v).
Proof.
  intros b c v Hb. unfold agg_std. destruct (Nat.lt_ge_cases (length v) 2) as [H|H]; [rewrite !agg_var_short by (rewrite ?map_length; auto); reflexivity|].
  rewrite !agg_var_fin by (rewrite ?map_length; auto). assert (N : v <> []) by (intros ->; cbn in H; lia).
  assert (E : rvar 1 (map (fun x => b * x + c) v) = (b * b) * rvar 1 v).
  { unfold rvar. rewrite rmean_aff by auto. rewrite map_length, map_map. rewrite (rsum_ext _ _ (fun x => (b * b) * ((x - rmean v) * (x - rmean v)))) by (intros; ring). rewrite rsum_scal. unfold Rdiv. ring. }
  rewrite E. pose proof (rvar_nonneg 1 v ltac:(lia)). rewrite !nsqrt_fin by (auto; nra). cbn [nmul]. f_equal. rewrite sqrt_mult by nra. rewrite sqrt_square by lra. reflexivity.
Qed.
Lemma fold_max_aff : forall b c v x, 0 < b -> fold_left Rmax (map (fun x => b * x + c) v) (b * x + c) = b * fold_left Rmax v x + c.
Proof.
  intros b c v. induction v as [|y v IH]; intros x Hb; [reflexivity|]. cbn [map fold_left]. rewrite <- IH by auto. f_equal.
  unfold Rmax. destruct (Rle_dec (b * x + c) (b * y + c)), (Rle_dec x y); try reflexivity; exfalso; nra.
Qed.
Lemma fold_min_aff : forall b c v x, 0 < b -> fold_left Rmin (map (fun x => b * x + c) v) (b * x + c) = b * fold_left Rmin v x + c.
Proof.
  intros b c v. induction v as [|y v IH]; intros x Hb; [reflexivity|]. cbn [map fold_left]. rewrite <- IH by auto. f_equal.
  unfold Rmin. destruct (Rle_dec (b * x + c) (b * y + c)), (Rle_dec x y); try reflexivity; exfalso; nra.
Qed.
Lemma agg_max_aff : forall b c v, 0 < b -> agg_max (map (fun x => b * x + c) v) = naff b c (agg_max v).
Proof. intros b c [|x v] Hb; [reflexivity|]. cbn [map agg_max]. rewrite fold_max_aff by auto. reflexivity. Qed.
Lemma agg_min_aff : forall b c v, 0 < b -> agg_min (map (fun x => b * x + c) v) = naff b c (agg_min v).
Proof. intros b c [|x v] Hb; [reflexivity|]. cbn [map agg_min]. rewrite fold_min_aff by auto. reflexivity. Qed.
Lemma agg_ext_cases : forall v, fin_or_nan (agg_max v) /\ fin_or_nan (agg_min v).
Proof. intros [|x v]; split; [left; reflexivity|left; reflexivity|right; eexists; reflexivity|right; eexists; reflexivity]. Qed.
Lemma nonneg_fin : forall x, nonneg x -> fin_or_nan x.
Proof. intros x [->|(r & -> & _)]; [left; auto|right; eauto]. Qed.
(** the exponentially weighted standard deviation scales *)
Lemma var_run_aff : forall a b c l s s', 0 < b -> 0 <= a <= 1 -> 0 <= v_old s ->
  v_old s' = v_old s -> v_sum s' = v_sum s -> v_sum2 s' = v_sum2 s -> v_nobs s' = v_nobs s -> v_cov s' = b * b * v_cov s -> v_mean s' = option_map (fun y => b * y + c) (v_mean s) ->
  var_run a s' (map (naff b c) l) = map (nmul (Fin b)) (var_run a s l).
Proof.
  intros a b c l. induction l as [|x l IH]; intros s s' Hb Ha H0 H1 H2 H3 H4 H5 H6; [reflexivity|]. cbn [map var_run]. cbv zeta. cbn [map].
  assert (K : 0 <= v_old (var_step a s x) /\ v_old (var_step a s' (naff b c x)) = v_old (var_step a s x) /\ v_sum (var_step a s' (naff b c x)) = v_sum (var_step a s x)
    /\ v_sum2 (var_step a s' (naff b c x)) = v_sum2 (var_step a s x) /\ v_nobs (var_step a s' (naff b c x)) = v_nobs (var_step a s x)
    /\ v_cov (var_step a s' (naff b c x)) = b * b * v_cov (var_step a s x) /\ v_mean (var_step a s' (naff b c x)) = option_map (fun y => b * y + c) (v_mean (var_step a s x))).
  { unfold var_step. rewrite present_aff, H1, H2, H3, H4, H5, H6. assert (Q : 0 <= v_old s * (1 - a)) by (apply Rmult_le_pos; lra).
    destruct (v_mean s) as [m|] eqn:EM, (present x) as [y|]; cbn [option_map]; cbn [v_old v_sum v_sum2 v_nobs v_cov v_mean].
    - set (w := v_old s * (1 - a)) in *.
      assert (E : (if reqb (b * m + c) (b * y + c) then b * m + c else (w * (b * m + c) + 1 * (b * y + c)) / (w + 1)) = b * (if reqb m y then m else (w * m + 1 * y) / (w + 1)) + c).
      { unfold reqb. destruct (Req_EM_T (b * m + c) (b * y + c)), (Req_EM_T m y); try reflexivity; try (exfalso; nra). field. lra. }
      rewrite E. set (q := if reqb m y then m else _). split; [lra|]. repeat split; auto. field. lra.
    - repeat split; auto.
    - repeat split; auto.
    - rewrite EM, H6. repeat split; auto. }
  destruct K as (K0 & K1 & K2 & K3 & K4 & K5 & K6). f_equal; [|apply IH; auto].
  unfold var_out. rewrite K2, K3, K4, K5. destruct (Nat.leb _ _); [|reflexivity]. unfold rltb. destruct (Rlt_dec 0 _) as [D|]; [|reflexivity].
  set (n := v_sum _ * v_sum _) in *. set (d := n - _) in *. set (cv := v_cov _). unfold zsqrt, rltb.
  replace (n / d * (b * b * cv)) with (b * b * (n / d * cv)) by (unfold Rdiv; ring). set (z := n / d * cv). assert (B2 : 0 < b * b) by nra.
  destruct (Rlt_dec (b * b * z) 0) as [Z1|Z1], (Rlt_dec z 0) as [Z2|Z2]; try (exfalso; nra); cbn [nmul]; f_equal; [ring|]. rewrite sqrt_mult by lra. rewrite sqrt_square by lra. reflexivity.
Qed.
(** the true range scales *)
Lemma nth_shift_map : forall f l i, f NaN = NaN -> nth i (shift 1 (map f l)) NaN = f (nth i (shift 1 l) NaN).
Proof. intros f l i H. rewrite !nth_shift1, map_length. destruct i; [auto|]. destruct (Nat.ltb _ _); [apply nth_map_nan; auto|auto]. Qed.
Definition mx2 (a b : num) : num := match a, b with NaN, c => c | c, NaN => c | _, _ => if nltb a b then b else a end.
Lemma row_max_mx2 : forall x y z, row_max x y z = mx2 (mx2 x y) z. Proof. reflexivity. Qed.
Lemma mx2_scale : forall b p q, 0 < b -> mx2 (nmul (Fin b) p) (nmul (Fin b) q) = nmul (Fin b) (mx2 p q).
Proof.
  intros b p q Hb.
  assert (S1 : sgn_inf b true = PInf) by (unfold sgn_inf, rltb; destruct (Rlt_dec 0 b); [reflexivity|lra]). assert (S2 : sgn_inf b false = NInf) by (unfold sgn_inf, rltb; destruct (Rlt_dec 0 b); [reflexivity|lra]).
  unfold mx2. destruct p as [p| | |], q as [q| | |]; cbn [nmul]; rewrite ?S1, ?S2; cbn [nltb nmul]; rewrite ?S1, ?S2; try reflexivity.
  unfold rltb. destruct (Rlt_dec (b * p) (b * q)), (Rlt_dec p q); try (exfalso; nra); reflexivity.
Qed.
Lemma row_max_scale : forall b x y z, 0 < b -> row_max (nmul (Fin b) x) (nmul (Fin b) y) (nmul (Fin b) z) = nmul (Fin b) (row_max x y z).
Proof. intros b x y z Hb. rewrite !row_max_mx2, !mx2_scale by auto. reflexivity. Qed.
Lemma nabs_scale : forall b x, 0 < b -> nabs (nmul (Fin b) x) = nmul (Fin b) (nabs x).
Proof.
  intros b x Hb. assert (S1 : sgn_inf b true = PInf) by (unfold sgn_inf, rltb; destruct (Rlt_dec 0 b); [reflexivity|lra]). assert (S2 : sgn_inf b false = NInf) by (unfold sgn_inf, rltb; destruct (Rlt_dec 0 b); [reflexivity|lra]).
  destruct x as [x| | |]; cbn [nmul nabs]; rewrite ?S1, ?S2; try reflexivity. rewrite Rabs_mult, (Rabs_right b) by lra. reflexivity.
Qed.
Lemma true_range_aff : forall b c h l cl, 0 < b -> true_range (map (naff b c) h) (map (naff b c) l) (map (naff b c) cl) = map (nmul (Fin b)) (true_range h l cl).
Proof.
  intros b c h l cl Hb. apply list_ext; [rewrite map_length, !len_true_range, !map_length; reflexivity|]. rewrite len_true_range, !map_length. intros i Hi. rewrite nth_map_nan by reflexivity. rewrite !true_range_at. rewrite !nth_seq_map' by (rewrite ?map_length; auto).
  rewrite !nth_map_nan by reflexivity. rewrite !nth_lift2 by reflexivity. rewrite !(nth_shift_map (naff b c)) by reflexivity. rewrite !nth_map_nan by reflexivity. rewrite !naff_sub by auto. rewrite !nabs_scale by auto. apply row_max_scale. auto.
Qed.
Lemma lt_div1 : forall a, rltb 0 a && rleb a 1 = true -> 0 <= a <= 1.
Proof. intros a H. apply andb_prop in H as [H1 H2]. apply rltb_true in H1. apply rleb_true in H2. lra. Qed.

(** the bands move with the prices; percent_b stays, and so does the bandwidth when only the unit changes *)
Theorem C91_moves_with_the_prices : forall b c k ts high low close (w wa : Z) span, 0 < b ->
  (forall B, BollingerBands ts w (Fin k) = Ok B -> exists B', BollingerBands (moved b c ts) w (Fin k) = Ok B' /\ bands_move b c B B')
  /\ (forall B, EwmBollingerBands ts span (Fin k) = Ok B -> exists B', EwmBollingerBands (moved b c ts) span (Fin k) = Ok B' /\ bands_move b c B B')
  /\ (forall B, length high = length close -> length low = length close -> KeltnerBands high low close wa span (Fin k) = Ok B ->
        exists B', KeltnerBands (moved b c high) (moved b c low) (moved b c close) wa span (Fin k) = Ok B' /\ bands_move b c B B')
  /\ (forall B, DonchianBands ts w = Ok B -> exists B', DonchianBands (moved b c ts) w = Ok B' /\ bands_move b c B B').
Proof.
  intros b c k ts high low close w wa span Hb. unfold moved. change (fun x => nadd (nmul (Fin b) x) (Fin c)) with (naff b c). split; [|split; [|split]]; intros B.
  - intros H. unfold BollingerBands, rolling_mean, rolling_std in *. unbind H. apply rolling_inv in E as [W ->]. apply rolling_inv in E0 as [_ ->]. injection H as <-. rewrite !rolling_ok by auto. cbn [bind].
    rewrite (roll_aff _ agg_mean (naff b c)) by (auto; intros; apply agg_mean_aff). rewrite (roll_aff _ agg_std (nmul (Fin b))) by (auto; intros; apply agg_std_aff; auto).
    eexists. split; [reflexivity|]. apply mkBands_move; auto; try apply len_roll; intros i; [apply roll_fin; intros; apply agg_mean_cases|apply roll_fin; intros; apply nonneg_fin, agg_std_nonneg].
  - intros H. unfold EwmBollingerBands, ewm_mean, ewm_std, ewm_span, ewm_std_span, rltb in *. destruct (Rlt_dec span 1); [discriminate|]. cbn [bind] in *. injection H as <-. pose proof (alpha_span span ltac:(lra)) as Ha. fold init_e.
    rewrite ewm_affine by lra. rewrite (var_run_aff _ b c ts (mkV None 0 1 1 1 0) (mkV None 0 1 1 1 0)) by (cbn [v_old v_sum v_sum2 v_nobs v_cov v_mean option_map]; auto; lra).
    eexists. split; [reflexivity|]. apply mkBands_move; auto; [apply (proj1 (pref_ewm _ _ _ _))|apply (proj1 (pref_var _ _ _))| |]; intros i; [apply ewm_vals; lra|apply nonneg_fin, var_run_nonneg].
  - intros L1 L2 H. unfold KeltnerBands, average_true_range in *. unbind H. injection H as <-. unfold ewm_mean, ewm_span, rltb in E. destruct (Rlt_dec span 1) as [|SP]; [discriminate|]. injection E as <-. pose proof (alpha_span span ltac:(lra)) as Ha. fold init_e.
    unfold ewm_mean. rewrite ewm_span_ok by lra. rewrite ewm_affine by lra. cbn [bind]. destruct (wa =? 0)%Z; [discriminate|]. unfold ewm_alpha in *. destruct (rltb 0 (1 / IZR wa) && rleb (1 / IZR wa) 1) eqn:EA; [|discriminate]. injection E0 as <-. apply lt_div1 in EA.
    rewrite true_range_aff by auto. fold init_e. rewrite <- (map_ext _ _ (scale_is_aff b)). rewrite ewm_affine by auto. rewrite (map_ext _ _ (scale_is_aff b)). cbn [bind].
    eexists. split; [reflexivity|]. apply mkBands_move; auto; [apply (proj1 (pref_ewm _ _ _ _))|rewrite (proj1 (pref_ewm _ _ _ _)), len_true_range; lia| |]; intros i; apply ewm_vals; lra.
  - intros H. unfold DonchianBands, rolling_max, rolling_min in *. unbind H. apply rolling_inv in E as [W ->]. apply rolling_inv in E0 as [_ ->]. injection H as <-. rewrite !rolling_ok by auto. cbn [bind].
    rewrite (roll_aff _ agg_max (naff b c)) by (auto; intros; apply agg_max_aff; auto). rewrite (roll_aff _ agg_min (naff b c)) by (auto; intros; apply agg_min_aff; auto).
    set (u := roll _ agg_max ts). set (lo := roll _ agg_min ts). assert (Fu : forall i, fin_or_nan (nth i u NaN)) by (intros i; apply roll_fin; intros; apply agg_ext_cases). assert (Fl : forall i, fin_or_nan (nth i lo NaN)) by (intros i; apply roll_fin; intros; apply agg_ext_cases).
    assert (Lu : length u = length ts) by apply len_roll. assert (Ll : length lo = length ts) by apply len_roll.
    assert (E1 : map (fun x => ndiv x (Fin 2)) (lift2 nadd (map (naff b c) u) (map (naff b c) lo)) = map (naff b c) (map (fun x => ndiv x (Fin 2)) (lift2 nadd u lo))).
    { apply list_ext; [rewrite !map_length, !len_lift2, !map_length; reflexivity|]. intros i _. repeat first [rewrite nth_lift2 by reflexivity | rewrite nth_map_nan by reflexivity].
      destruct (Fu i) as [->|(x & ->)]; [reflexivity|]. destruct (Fl i) as [->|(y & ->)]; [reflexivity|]. unfold naff. cbn [nmul nadd]. rewrite !ndiv_fin by lra. cbn [nmul nadd]. f_equal. field. }
    assert (E2 : map (fun x => ndiv x (Fin 2)) (lift2 nsub (map (naff b c) u) (map (naff b c) lo)) = map (nmul (Fin b)) (map (fun x => ndiv x (Fin 2)) (lift2 nsub u lo))).
    { apply list_ext; [rewrite !map_length, !len_lift2, !map_length; reflexivity|]. intros i _. repeat first [rewrite nth_lift2 by reflexivity | rewrite nth_map_nan by reflexivity].
      rewrite naff_sub by auto. destruct (Fu i) as [->|(x & ->)]; [reflexivity|]. destruct (Fl i) as [->|(y & ->)]; [reflexivity|]. unfold nsub. cbn [nmul nadd nneg]. rewrite !ndiv_fin by lra. cbn [nmul]. f_equal. field. }
    rewrite E1, E2. eexists. split; [reflexivity|]. apply mkBands_move; auto; try (rewrite map_length, len_lift2; lia); intros i.
    + destruct (donchian_parts ts (Z.to_nat w) i) as [X _]. exact X.
    + destruct (donchian_parts ts (Z.to_nat w) i) as [_ X]. apply nonneg_fin. exact X.
Qed.

(** ** C92 *)
Lemma nth_diff : forall (w : nat) l i, nth i (diff (Z.of_nat w) l) NaN = if Nat.ltb i w then NaN else nsub (nth i l NaN) (nth (i - w) l NaN).
Proof.
  intros w l i. unfold diff. rewrite nth_lift2 by reflexivity. unfold shift. destruct (Nat.lt_ge_cases i (length l)) as [Hi|Hi].
  - rewrite nth_seq_map' by auto. destruct (Nat.ltb_spec i w) as [H|H]; [rewrite (proj2 (Z.ltb_lt _ _)) by lia; apply nsub_nan_r|]. rewrite (proj2 (Z.ltb_ge _ _)) by lia. do 2 f_equal. lia.
  - rewrite !nth_overflow with (n := i) by (rewrite ?map_length, ?seq_length; lia). destruct (Nat.ltb i w); [reflexivity|]. reflexivity.
Qed.
(** rolling momentum is the change over the last w rows divided by w, once there are w rows before; missing where one of the two values is *)
Theorem C92_rolling : forall ts (w : nat) i, (1 <= w)%nat -> length (rolling_mom ts (Z.of_nat w)) = length ts /\
  ((i < w)%nat -> nth i (rolling_mom ts (Z.of_nat w)) NaN = NaN)
  /\ (forall x y, (w <= i)%nat -> nth i ts NaN = Fin x -> nth (i - w) ts NaN = Fin y -> nth i (rolling_mom ts (Z.of_nat w)) NaN = Fin ((x - y) / INR w))
  /\ (nth i ts NaN = NaN \/ nth (i - w) ts NaN = NaN -> nth i (rolling_mom ts (Z.of_nat w)) NaN = NaN).
Proof.
  intros ts w i Hw. unfold rolling_mom. rewrite map_length, len_diff. split; [auto|]. rewrite nth_map_nan by reflexivity. rewrite nth_diff. destruct (Nat.ltb_spec i w) as [H|H].
  - split; [auto|]. split; [intros; lia|auto].
  - split; [intros; lia|]. split.
    + intros x y _ -> ->. rewrite <- INR_IZR_INZ. unfold nsub. cbn [nneg nadd]. assert (0 < INR w) by (apply lt_0_INR; lia). rewrite ndiv_fin by lra. reflexivity.
    + intros [->| ->]; [reflexivity|]. rewrite nsub_nan_r. reflexivity.
Qed.
(** on a series of numbers it is the mean of the last w one-step changes *)
Lemma telescope : forall (f : nat -> R) n s, sumn n (fun j => f (S (s + j)) - f (s + j)%nat) = f (s + n)%nat - f s.
Proof.
  intros f n s. induction n as [|n IH]; [rewrite Nat.add_0_r; cbn; ring|]. unfold sumn in *. rewrite seq_S, map_app, rsum_app, IH. cbn [map rsum fold_right]. rewrite Nat.add_0_l. replace (s + S n)%nat with (S (s + n)) by lia. ring.
Qed.
Lemma nth_fin : forall (x : list R) j, (j < length x)%nat -> nth j (map Fin x) NaN = Fin (nth j x 0).
Proof. intros x j Hj. rewrite (nth_indep _ NaN (Fin 0)) by (rewrite map_length; auto). apply map_nth. Qed.
Theorem C92_mean_of_changes : forall (x : list R) (w : nat) i, (1 <= w <= i)%nat -> (i < length x)%nat ->
  nth i (rolling_mom (map Fin x) (Z.of_nat w)) NaN = Fin (sumn w (fun j => nth (S (i - w + j)) x 0 - nth (i - w + j) x 0) / INR w).
Proof.
  intros x w i Hw Hi. destruct (C92_rolling (map Fin x) w i ltac:(lia)) as (_ & _ & H & _). rewrite (H (nth i x 0) (nth (i - w) x 0)) by (try apply nth_fin; lia).
  rewrite (telescope (fun j => nth j x 0)). replace (i - w + w)%nat with i by lia. reflexivity.
Qed.
(** a window of 0 gives NaN throughout, and a negative window looks forward: row i shows the change to row i+k *)
Theorem C92_zero_and_negative : forall ts (k : nat) i, (1 <= k)%nat ->
  (forall x, nth i ts NaN = Fin x -> nth i (rolling_mom ts 0) NaN = NaN)
  /\ (forall x y, nth i ts NaN = Fin x -> nth (i + k) ts NaN = Fin y -> nth i (rolling_mom ts (- Z.of_nat k)) NaN = Fin ((y - x) / INR k))
  /\ ((length ts <= i + k)%nat -> nth i (rolling_mom ts (- Z.of_nat k)) NaN = NaN).
Proof.
  intros ts k i Hk. unfold rolling_mom. rewrite !nth_map_nan by (try reflexivity). assert (PK : 0 < INR k) by (apply lt_0_INR; lia). split; [|split].
  - intros x E. pose proof (nth_diff 0 ts i) as D. cbn [Z.of_nat Nat.ltb Nat.leb] in D. rewrite D, Nat.sub_0_r, E. unfold nsub. cbn [nneg nadd]. rewrite Rplus_opp_r. apply zero_div_zero.
  - intros x y Ex Ey. assert (L : (i + k < length ts)%nat) by (destruct (Nat.lt_ge_cases (i + k) (length ts)); auto; rewrite nth_overflow in Ey by lia; discriminate).
    unfold diff. rewrite nth_lift2 by reflexivity. unfold shift. rewrite nth_seq_map' by lia. rewrite (proj2 (Z.ltb_ge _ _)) by lia. replace (Z.to_nat (Z.of_nat i - - Z.of_nat k)) with (i + k)%nat by lia. rewrite Ex, Ey.
    unfold nsub. cbn [nneg nadd]. rewrite opp_IZR, <- INR_IZR_INZ. rewrite ndiv_fin by lra. f_equal. field. lra.
  - intros L. unfold diff. rewrite nth_lift2 by reflexivity. unfold shift. destruct (Nat.lt_ge_cases i (length ts)) as [Hi|Hi].
    + rewrite nth_seq_map' by lia. rewrite (proj2 (Z.ltb_ge _ _)) by lia. rewrite (nth_overflow ts (n := Z.to_nat _)) by lia. rewrite nsub_nan_r. reflexivity.
    + rewrite !nth_overflow with (n := i) by (rewrite ?map_length, ?seq_length; lia). reflexivity.
Qed.
(** *** exponentially weighted momentum *)
(** the one-step changes of a series; none at the first row *)
Definition changes (ts : list num) : list num := map (fun i => match i with O => NaN | S j => nsub (nth i ts NaN) (nth j ts NaN) end) (seq 0 (length ts)).
(** how many numbers there are among rows 0..i *)
Definition is_num (x : num) : bool := match x with Fin _ => true | _ => false end.
Definition seen_count (l : list num) (i : nat) : nat := length (filter is_num (firstn (S i) l)).
Lemma diff_changes : forall ts, diff 1 ts = changes ts.
Proof.
  intros ts. unfold changes. apply list_ext; [rewrite len_diff, map_length, seq_length; auto|]. rewrite len_diff. intros i Hi. rewrite nth_seq_map' by auto. apply nth_diff1.
Qed.
Lemma est_count : forall a l i, (i < length l)%nat -> snd (est a l i) = seen_count l i.
Proof.
  intros a l i. unfold seen_count. induction i as [|i IH]; intros H.
  - rewrite est_0 by auto. rewrite (firstn_snoc l 0) by auto. cbn [firstn app]. unfold init_e, ewm_step. destruct (nth 0 l NaN); reflexivity.
  - rewrite est_S by auto. rewrite (firstn_snoc l (S i)) by auto. rewrite filter_app, app_length, <- IH by lia. destruct (est a l i) as [[m old] n]. unfold ewm_step. cbn [snd].
    destruct m, (nth (S i) l NaN); cbn [present filter is_num length snd]; lia.
Qed.
Lemma ewm_minp : forall a m l i, (i < length l)%nat -> nth i (ewm_run a m init_e l) NaN = if Nat.leb (Nat.max m 1) (seen_count l i) then nth i (ewm_run a 0 init_e l) NaN else NaN.
Proof.
  intros a m l i H. rewrite !ewm_run_nth by auto. fold (est a l i). rewrite <- (est_count a l i H). destruct (est a l i) as [[[q|] old] n]; cbn [ewm_out snd]; [|destruct (Nat.leb _ _); reflexivity].
  destruct (Nat.leb_spec (Nat.max m 1) n) as [A|A]; [|reflexivity]. rewrite (proj2 (Nat.leb_le _ _)) by lia. reflexivity.
Qed.
Lemma len_changes : forall ts, length (changes ts) = length ts. Proof. intros. unfold changes. rewrite map_length, seq_length. auto. Qed.
(** it is the exponentially weighted mean of the one-step changes with a = 2/(span+1), missing until min_periods changes (and at least one) have been seen *)
Theorem C92_ewm : forall ts span (minp : nat), 1 <= span -> exists out mean, ewm_mom ts span minp = Ok out /\ length out = length ts /\ ewm_mean (changes ts) span = Ok mean /\
  let a := 2 / (span + 1) in let d := changes ts in forall i, (i < length ts)%nat ->
    ((seen_count d i < Nat.max minp 1)%nat -> nth i out NaN = NaN)
    /\ ((Nat.max minp 1 <= seen_count d i)%nat -> nth i out NaN = nth i mean NaN
          /\ (forall x, nth i d NaN = Fin x -> nth i out NaN = Fin (wsum a (fun x => x) d i / wsum a (fun _ => 1) d i))).
Proof.
  intros ts span minp Hs. unfold ewm_mom, ewm_mean. rewrite diff_changes. rewrite !ewm_span_ok by auto. eexists _, _. split; [reflexivity|]. split; [rewrite (proj1 (pref_ewm _ _ _ _)); apply len_changes|]. split; [reflexivity|].
  cbv zeta. intros i Hi. rewrite ewm_minp by (rewrite len_changes; auto). pose proof (alpha_span span Hs). split.
  - intros H0. rewrite (proj2 (Nat.leb_gt _ _)) by auto. reflexivity.
  - intros H0. rewrite (proj2 (Nat.leb_le _ _)) by auto. split; [reflexivity|]. intros x E. destruct (C56_weighted_mean (changes ts) span Hs) as (o & Eo & _ & H1). unfold ewm_mean in Eo. rewrite ewm_span_ok in Eo by auto. injection Eo as <-.
    cbv zeta in H1. destruct (H1 i ltac:(rewrite len_changes; auto)) as (H2 & _). apply (H2 x E).
Qed.
Theorem C92_bad_span : forall ts span minp, span < 1 -> ewm_mom ts span minp = Raise ValueError.
Proof. intros ts span minp H. unfold ewm_mom, ewm_span, rltb. destruct (Rlt_dec span 1); [reflexivity|lra]. Qed.
(** a straight line has its slope as momentum *)
Theorem C92_straight_line : forall a s n (w : nat) span out i, (1 <= w)%nat -> (i < n)%nat -> let line := map (fun j => Fin (a + s * INR j)) (seq 0 n) in
  ((w <= i)%nat -> nth i (rolling_mom line (Z.of_nat w)) NaN = Fin s)
  /\ (ewm_mom line span 0 = Ok out -> (1 <= i)%nat -> nth i out NaN = Fin s).
Proof.
  intros a s n w span out i Hw Hi line. assert (E : forall j, (j < n)%nat -> nth j line NaN = Fin (a + s * INR j)) by (intros j Hj; unfold line; rewrite nth_seq_map' by auto; reflexivity).
  assert (LL : length line = n) by (unfold line; rewrite map_length, seq_length; auto). assert (PW : 0 < INR w) by (apply lt_0_INR; lia). split.
  - intros H. destruct (C92_rolling line w i Hw) as (_ & _ & X & _). rewrite (X _ _ H (E i Hi) (E (i - w)%nat ltac:(lia))). f_equal. rewrite minus_INR by auto. field. lra.
  - intros H H1. destruct (Rlt_dec span 1) as [L|L]; [rewrite C92_bad_span in H by auto; discriminate|].
    assert (C : forall j, (j < n)%nat -> nth j (changes line) NaN = match j with O => NaN | _ => Fin s end).
    { intros j Hj. unfold changes. rewrite LL, nth_seq_map' by auto. destruct j as [|j]; [reflexivity|]. rewrite !E by lia. unfold nsub. cbn [nneg nadd]. f_equal. rewrite S_INR. ring. }
    assert (D : diff 1 line = changes line) by apply diff_changes. unfold ewm_mom in H. rewrite D in H. assert (Hs : 1 <= span) by lra. rewrite ewm_span_ok in H by auto. injection H as <-.
    pose proof (alpha_span span Hs). destruct (ewm_some (2 / (span + 1)) (changes line) i ltac:(lra) ltac:(rewrite len_changes; lia)) as (m & Em & _ & Bm).
    { exists i, s. split; [lia|]. rewrite C by auto. destruct i; [lia|reflexivity]. }
    rewrite Em. f_equal. specialize (Bm s s). assert (s <= m <= s); [|lra]. apply Bm. intros j x Hj Ej. rewrite C in Ej by lia. destruct j; [discriminate|]. injection Ej as <-. lra.
Qed.

(** ** non-trivial instances *)
Definition ex_p : list num := [Fin 1; Fin 3; Fin 8].
Example C91_example : exists b, BollingerBands ex_p 2 (Fin 2) = Ok b /\ nth 1 (middle b) NaN = Fin 2 /\ nth 1 (upper b) NaN = Fin (2 + 2 * sqrt 2) /\ nth 0 (upper b) NaN = NaN.
Proof.
  assert (W : window_is ex_p 2 1 [1; 3]) by (split; [lia|]; split; [reflexivity|]; intros [|[|j]] Hj; try reflexivity; lia).
  destruct (C91_bollinger ex_p 2 2 1 [1; 3] ltac:(lia) ltac:(cbn; lia) W) as (b & m & s & E & Hm & S0 & S1 & M & U & _). exists b. split; [exact E|].
  cbn in Hm, S1. assert (m = 2) by lra. subst m. assert (s = sqrt 2) by (symmetry; apply sqrt_lem_1; lra). subst s. split; [exact M|]. split; [exact U|].
  unfold BollingerBands in E. unbind E. injection E as <-. unfold upper. rewrite nth_lift2 by reflexivity. cbn [b_mean b_std b_mult]. unfold rolling_mean in E0. apply rolling_inv in E0 as [_ ->]. rewrite nth_roll by (cbn; lia). reflexivity.
Qed.
Example C91_keltner_example : exists b, KeltnerBands [Fin 4; Fin 6] [Fin 2; Fin 5] [Fin 3; Fin 5] 2 3 (Fin 2) = Ok b
  /\ nth 1 (middle b) NaN = Fin (13 / 3) /\ nth 1 (upper b) NaN = Fin (13 / 3 + 2 * (8 / 3)).
Proof.
  destruct C60_example as (_ & atr & EA & VA). unfold ex_h, ex_l, ex_c in *.
  destruct (C56_weighted_mean [Fin 3; Fin 5] 3 ltac:(lra)) as (mid & EM & _ & H). cbv zeta in H. destruct (H 1%nat ltac:(cbn; lia)) as (H1 & _). destruct (H1 5 eq_refl) as [_ VM]. rewrite !wsum_S, !wsum_0 in VM. cbn [nth on_present] in VM.
  assert (VM' : nth 1 mid NaN = Fin (13 / 3)) by (rewrite VM; f_equal; field).
  destruct (proj2 (proj2 (C91_what_the_bands_show [] [Fin 4; Fin 6] [Fin 2; Fin 5] [Fin 3; Fin 5] 1 2 3 2)) mid atr EM EA) as (b & EB & HB). exists b. split; [auto|]. destruct (HB 1%nat) as (B1 & B2 & _). destruct (B2 _ _ VM' VA) as (U & _). split; [rewrite B1; auto|auto].
Qed.
Example C91_moves_example : exists b b', DonchianBands ex_p 2 = Ok b /\ DonchianBands (moved 2 10 ex_p) 2 = Ok b' /\ nth 1 (upper b) NaN = Fin 3 /\ nth 1 (upper b') NaN = Fin 16.
Proof.
  destruct (proj1 (C91_bad_windows ex_p [] [] [] 2 1 1 1) ltac:(lia)) as (_ & b & E). destruct (proj2 (proj2 (proj2 (C91_moves_with_the_prices 2 10 1 ex_p [] [] [] 2 1 1 ltac:(lra)))) b E) as (b' & E' & U & _).
  exists b, b'. split; [auto|]. split; [auto|].
  assert (V : nth 1 (upper b) NaN = Fin 3).
  { destruct (C57_donchian ex_p 2 1 ltac:(lia) ltac:(cbn; lia)) as (b2 & mx & mn & E2 & Emx & _ & Hu & _). assert (b2 = b) by (change (Z.of_nat 2) with 2%Z in E2; congruence). subst b2. rewrite Hu. unfold rolling_max in Emx. apply rolling_inv in Emx as [_ ->].
    rewrite nth_roll by (cbn; lia). rewrite Nat2Z.id. rewrite (roll_at_window 2 agg_max ex_p 1 [1; 3]); [|cbn; lia|split; [lia|]; split; [reflexivity|]; intros [|[|j]] Hj; try reflexivity; lia]. cbn [agg_max fold_left]. f_equal. apply Rmax_right. lra. }
  split; [exact V|]. rewrite U. unfold moved. rewrite nth_map_nan by reflexivity. rewrite V. cbn. f_equal. ring.
Qed.
Example C92_example : nth 2 (rolling_mom ex_p 2) NaN = Fin (7 / 2) /\ nth 0 (rolling_mom ex_p (- 1)) NaN = Fin 2 /\ seen_count (changes ex_p) 2 = 2%nat.
Proof.
  split; [|split].
  - destruct (C92_rolling ex_p 2 2 ltac:(lia)) as (_ & _ & H & _). change 2%Z with (Z.of_nat 2). rewrite (H 8 1 ltac:(lia) eq_refl eq_refl). f_equal. cbn. lra.
  - destruct (C92_zero_and_negative ex_p 1 0 ltac:(lia)) as (_ & H & _). change (- 1)%Z with (- Z.of_nat 1)%Z. rewrite (H 1 3 eq_refl eq_refl). f_equal. cbn. lra.
  - reflexivity.
Qed.
Example C92_ewm_example : exists out, ewm_mom ex_p 3 2 = Ok out /\ nth 1 out NaN = NaN /\ nth 2 out NaN = Fin 4.
Proof.
  destruct (C92_ewm ex_p 3 2 ltac:(lra)) as (out & mean & E & _ & _ & H). cbv zeta in H. exists out. split; [auto|]. split; [apply (proj1 (H 1%nat ltac:(cbn; lia))); cbn; lia|].
  destruct (proj2 (H 2%nat ltac:(cbn; lia)) ltac:(cbn; lia)) as [_ V]. rewrite (V (8 + - 3) eq_refl). rewrite !wsum_S, !wsum_0. cbn. f_equal. field.
Qed.
Print Assumptions C91_what_the_bands_show. Print Assumptions C91_bollinger. Print Assumptions C91_bad_windows. Print Assumptions C91_moves_with_the_prices.
Print Assumptions C92_rolling. Print Assumptions C92_mean_of_changes. Print Assumptions C92_zero_and_negative. Print Assumptions C92_ewm. Print Assumptions C92_bad_span. Print Assumptions C92_straight_line.
