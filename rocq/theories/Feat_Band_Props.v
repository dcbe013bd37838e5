(** C57, C58: bands and relative strength. *)
From Coq Require Import Reals Lra Psatz ZArith List Arith Bool Lia.
From Verif Require Import Base Num Sums Feat_Ops Feat_Spec Feat_Proofs Ewm_Proofs Feat_Model Feat_Causal_Props Feat_Avg_Props.
Import ListNotations.
Open Scope R_scope.

(** ** C57 *)
Lemma agg_std_nonneg : forall v, nonneg (agg_std v).
Proof.
  intros v. unfold agg_std. destruct (Nat.lt_ge_cases (length v) 2) as [H|H]; [rewrite agg_var_short by auto; left; reflexivity|].
  rewrite agg_var_fin by auto. rewrite nsqrt_fin by (apply rvar_nonneg; lia). right. eexists. split; [reflexivity|apply sqrt_pos].
Qed.
Lemma roll_nonneg : forall w agg l i, (forall v, window_is l w i v -> nonneg (agg v)) -> nonneg (nth i (roll w agg l) NaN).
Proof. intros w agg l i H. destruct (roll_cases w agg l i) as [->|(v & _ & Hv & ->)]; [left; reflexivity|apply H; auto]. Qed.
Lemma var_run_nonneg : forall a l s i, nonneg (nth i (var_run a s l) NaN).
Proof.
  intros a l s i. destruct (Nat.lt_ge_cases i (length l)) as [H|H]; [|left; apply nth_overflow; rewrite (proj1 (pref_var _ _ _)); auto].
  rewrite var_run_nth by auto. unfold zsqrt, var_out. destruct (Nat.leb _ _); [|left; reflexivity]. destruct (rltb 0 _); [|left; reflexivity].
  unfold rltb. match goal with |- context [Rlt_dec ?x 0] => destruct (Rlt_dec x 0) as [|X] end; right; eexists; (split; [reflexivity|]); [lra|apply sqrt_pos].
Qed.
Definition fin_or_nan (x : num) : Prop := x = NaN \/ exists r, x = Fin r.
Lemma roll_fin : forall w agg l i, (forall v, fin_or_nan (agg v)) -> fin_or_nan (nth i (roll w agg l) NaN).
Proof. intros w agg l i H. destruct (roll_cases w agg l i) as [->|(v & _ & Hv & ->)]; [left; reflexivity|apply H; auto]. Qed.
Lemma agg_mean_cases : forall v, fin_or_nan (agg_mean v).
Proof. intros [|x v]; [left; apply agg_mean_nil|right; eexists; apply agg_mean_fin; discriminate]. Qed.

(** the bands that can be built with multiplier k >= 0; for Keltner bands low <= high on every bar *)
Inductive built (k : R) : bands -> Prop :=
| built_bollinger : forall ts w b, BollingerBands ts w (Fin k) = Ok b -> built k b
| built_ewm : forall ts span b, EwmBollingerBands ts span (Fin k) = Ok b -> built k b
| built_keltner : forall high low close wa span b, KeltnerBands high low close wa span (Fin k) = Ok b ->
    (forall i, nth i high NaN = NaN \/ nth i low NaN = NaN \/ exists h l, nth i high NaN = Fin h /\ nth i low NaN = Fin l /\ l <= h) -> built k b
| built_donchian : forall ts w b, DonchianBands ts w = Ok b -> k = 1 -> built k b.

Lemma donchian_parts : forall ts w i, fin_or_nan (nth i (map (fun x => ndiv x (Fin 2)) (lift2 nadd (roll w agg_max ts) (roll w agg_min ts))) NaN)
  /\ nonneg (nth i (map (fun x => ndiv x (Fin 2)) (lift2 nsub (roll w agg_max ts) (roll w agg_min ts))) NaN).
Proof.
  intros ts w i. rewrite !nth_map_nan, !nth_lift2 by reflexivity. destruct (Nat.lt_ge_cases i (length ts)) as [Hi|Hi]; [|rewrite !nth_roll_over by auto; split; left; reflexivity].
  rewrite !nth_roll by auto. destruct (window_dec ts w i Hi) as [(v & Hv)|Hn]; [|rewrite !roll_at_none by auto; split; left; reflexivity].
  rewrite !(roll_at_window _ _ _ _ _ Hi Hv). destruct v as [|x v]; [split; left; reflexivity|]. cbn [agg_max agg_min nadd nsub nneg]. rewrite !ndiv_fin by lra. split; [right; eexists; reflexivity|].
  right. eexists. split; [reflexivity|]. destruct (fold_min_spec v x) as [M1 M2]. destruct (fold_max_spec v x) as [X1 X2]. pose proof (M2 x (or_introl eq_refl)). pose proof (X2 x (or_introl eq_refl)). lra.
Qed.
Lemma built_parts : forall k b, built k b -> b_mult b = Fin k /\ (forall i, fin_or_nan (nth i (b_mean b) NaN)) /\ (forall i, nonneg (nth i (b_std b) NaN)).
Proof.
  intros k b [ts w b' H|ts span b' H|high low close wa span b' H HV|ts w b' H ->].
  - unfold BollingerBands, rolling_mean, rolling_std in H. unbind H. apply rolling_inv in E as [_ ->]. apply rolling_inv in E0 as [_ ->]. injection H as <-. cbn [b_mult b_mean b_std].
    split; [reflexivity|]. split; intros i; [apply roll_fin; intros; apply agg_mean_cases|apply roll_nonneg; intros; apply agg_std_nonneg].
  - unfold EwmBollingerBands, ewm_mean, ewm_std, ewm_span, ewm_std_span, rltb in H. destruct (Rlt_dec span 1); [discriminate|]. cbn [bind] in H. injection H as <-. cbn [b_mult b_mean b_std].
    pose proof (alpha_span span ltac:(lra)). split; [reflexivity|]. split; intros i; [|apply var_run_nonneg]. apply ewm_vals. lra.
  - unfold KeltnerBands in H. unbind H. injection H as <-. cbn [b_mult b_mean b_std]. unfold ewm_mean, ewm_span, rltb in E. destruct (Rlt_dec span 1); [discriminate|]. injection E as <-.
    pose proof (alpha_span span ltac:(lra)). split; [reflexivity|]. split; intros i; [apply ewm_vals; lra|]. apply (C60_nonnegative high low close wa); auto.
  - unfold DonchianBands, rolling_max, rolling_min in H. unbind H. apply rolling_inv in E as [_ ->]. apply rolling_inv in E0 as [_ ->]. injection H as <-. cbn [b_mult b_mean b_std].
    split; [reflexivity|]. split; intros i; apply donchian_parts.
Qed.
Lemma nmul_nan_l : forall x, nmul NaN x = NaN. Proof. destruct x; reflexivity. Qed.
Lemma nmul_nan_r : forall x, nmul x NaN = NaN. Proof. destruct x; reflexivity. Qed.
Lemma nadd_nan_r : forall x, nadd x NaN = NaN. Proof. destruct x; reflexivity. Qed.
Lemma ndiv_nan_r : forall x, ndiv x NaN = NaN. Proof. destruct x; reflexivity. Qed.
Lemma ndiv_nan_l : forall x, ndiv NaN x = NaN. Proof. destruct x; reflexivity. Qed.
(** at every row: both bands are missing, or lower <= middle <= upper with the middle half-way, bandwidth (upper-lower)/middle and
    percent_b (price-lower)/(upper-lower) *)
Theorem C57_ordering : forall k b i, 0 <= k -> built k b ->
  (nth i (upper b) NaN = NaN /\ nth i (lower b) NaN = NaN)
  \/ exists lo mid hi s, nth i (lower b) NaN = Fin lo /\ nth i (middle b) NaN = Fin mid /\ nth i (upper b) NaN = Fin hi /\ nth i (b_std b) NaN = Fin s
       /\ lo <= mid <= hi /\ hi - lo = 2 * k * s /\ mid - lo = hi - mid
       /\ (mid <> 0 -> nth i (bandwidth b) NaN = Fin ((hi - lo) / mid))
       /\ (lo < hi -> forall p, nth i (b_ts b) NaN = Fin p -> nth i (percent_b b) NaN = Fin ((p - lo) / (hi - lo))).
Proof.
  intros k b i Hk HB. destruct (built_parts k b HB) as (Em & Hm & Hs). specialize (Hm i). specialize (Hs i).
  assert (D : forall s, nmul (nmul (Fin 2) NaN) s = NaN) by (intros; apply nmul_nan_l).
  unfold percent_b, bandwidth, middle, upper, lower. rewrite Em. rewrite !nth_lift2 by reflexivity. rewrite !nth_map_nan by reflexivity.
  destruct Hm as [->|(m & ->)]; [left; split; reflexivity|]. destruct Hs as [->|(s & -> & S0)]; [left; split; reflexivity|].
  right. exists (m - s * k), m, (m + s * k), s. cbn [nmul nadd nsub nneg].
  assert (P : 0 <= s * k) by (apply Rmult_le_pos; auto).
  split; [reflexivity|]. split; [reflexivity|]. split; [reflexivity|]. split; [reflexivity|]. split; [lra|]. split; [ring|]. split; [ring|]. split.
  - intros M. rewrite ndiv_fin by auto. f_equal. f_equal. ring.
  - intros L p ->. unfold nsub. cbn [nneg nadd]. rewrite ndiv_fin by lra. f_equal. f_equal; ring.
Qed.
(** so percent_b is 0 at the lower band and 1 at the upper one *)
Theorem C57_percent_b_ends : forall k b i lo hi, 0 <= k -> built k b -> nth i (lower b) NaN = Fin lo -> nth i (upper b) NaN = Fin hi -> lo < hi ->
  (nth i (b_ts b) NaN = Fin lo -> nth i (percent_b b) NaN = Fin 0) /\ (nth i (b_ts b) NaN = Fin hi -> nth i (percent_b b) NaN = Fin 1).
Proof.
  intros k b i lo hi Hk HB El Eh L. destruct (C57_ordering k b i Hk HB) as [[E _]|(lo' & mid & hi' & s & E1 & _ & E3 & _ & _ & _ & _ & _ & H)]; [congruence|].
  assert (lo' = lo) by congruence. assert (hi' = hi) by congruence. subst. split; intros E; rewrite (H L _ E); f_equal; field; lra.
Qed.
(** Donchian: the bands are the rolling extremes *)
Theorem C57_donchian : forall ts (w : nat) i, (1 <= w)%nat -> (i < length ts)%nat -> exists b mx mn,
  DonchianBands ts (Z.of_nat w) = Ok b /\ rolling_max ts (Z.of_nat w) = Ok mx /\ rolling_min ts (Z.of_nat w) = Ok mn
  /\ nth i (upper b) NaN = nth i mx NaN /\ nth i (lower b) NaN = nth i mn NaN
  /\ ((exists p lo hi, nth i ts NaN = Fin p /\ nth i (lower b) NaN = Fin lo /\ nth i (upper b) NaN = Fin hi /\ lo <= p <= hi
         /\ (lo < hi -> exists q, nth i (percent_b b) NaN = Fin q /\ 0 <= q <= 1 /\ (q = 0 <-> p = lo) /\ (q = 1 <-> p = hi))
         /\ (lo = hi -> nth i (percent_b b) NaN = NaN))
      \/ (nth i (lower b) NaN = NaN /\ nth i (upper b) NaN = NaN /\ nth i (percent_b b) NaN = NaN)).
Proof.
  intros ts w i Hw Hi. unfold DonchianBands, rolling_max, rolling_min. rewrite !rolling_ok by lia. rewrite Nat2Z.id. cbn [bind].
  eexists _, _, _. split; [reflexivity|]. split; [reflexivity|]. split; [reflexivity|].
  unfold upper, percent_b, lower. cbn [b_ts b_mean b_std b_mult]. repeat first [rewrite nth_lift2 by reflexivity | rewrite nth_map_nan by reflexivity]. rewrite !nth_roll by auto.
  destruct (window_dec ts w i Hi) as [(v & Hv)|Hn].
  - rewrite !(roll_at_window _ _ _ _ _ Hi Hv). pose proof Hv as (A1 & A2 & A3). destruct v as [|x v]; [cbn in A2; lia|]. cbn [agg_max agg_min].
    destruct (fold_min_spec v x) as [M1 M2]. destruct (fold_max_spec v x) as [X1 X2]. set (lo := fold_left Rmin v x) in *. set (hi := fold_left Rmax v x) in *.
    assert (EP : nth i ts NaN = Fin (nth (w - 1) (x :: v) 0)) by (rewrite <- (A3 (w - 1)%nat) by lia; f_equal; lia).
    assert (IP : In (nth (w - 1) (x :: v) 0) (x :: v)) by (apply nth_In; lia). set (p := nth (w - 1) (x :: v) 0) in *.
    pose proof (M2 p IP) as B1. pose proof (X2 p IP) as B2. rewrite EP. unfold nsub. cbn [nadd nneg]. rewrite !ndiv_fin by lra. cbn [nadd nneg nmul].
    replace ((hi + lo) / 2 + (hi + - lo) / 2 * 1) with hi by field. replace ((hi + lo) / 2 + - ((hi + - lo) / 2 * 1)) with lo by field. replace (2 * ((hi + - lo) / 2) * 1) with (hi - lo) by field.
    split; [reflexivity|]. split; [reflexivity|]. left. exists p, lo, hi. split; [reflexivity|]. split; [reflexivity|]. split; [reflexivity|]. split; [lra|]. split.
    + intros L. exists ((p - lo) / (hi - lo)). rewrite ndiv_fin by lra. split; [f_equal|]. assert (I : 0 < / (hi - lo)) by (apply Rinv_0_lt_compat; lra).
      assert (Q : (p - lo) / (hi - lo) * (hi - lo) = p - lo) by (field; lra). set (q := (p - lo) / (hi - lo)) in *. split; [split; nra|]. split; split; intros G; try nra.
    + intros L. rewrite L. replace (p + - hi) with 0 by lra. replace (hi - hi) with 0 by ring. apply zero_div_zero.
  - rewrite !roll_at_none by auto. split; [reflexivity|]. split; [reflexivity|]. right. split; [reflexivity|]. split; [reflexivity|]. apply ndiv_nan_r.
Qed.

(** ** C58 *)
Lemma strength_vals : forall u d, 0 <= u -> 0 <= d -> strength (Fin u) (Fin d) = (if Req_EM_T (u + d) 0 then NaN else Fin (100 * (u / (u + d)))).
Proof.
  intros u d Hu Hd. unfold strength. cbn [nadd]. destruct (Req_EM_T (u + d) 0) as [E|E].
  - assert (u = 0) by lra. assert (d = 0) by lra. subst. rewrite Rplus_0_r, zero_div_zero. reflexivity.
  - rewrite ndiv_fin by auto. reflexivity.
Qed.
Lemma strength_range : forall u d, nonneg u -> nonneg d -> within 0 100 (strength u d).
Proof.
  intros u d [->|(u0 & -> & U)] [->|(d0 & -> & D)]; try (left; reflexivity). rewrite strength_vals by auto. destruct (Req_EM_T (u0 + d0) 0) as [E|E]; [left; reflexivity|].
  right. eexists. split; [reflexivity|]. assert (P : 0 < u0 + d0) by lra. assert (Q : u0 / (u0 + d0) * (u0 + d0) = u0) by (field; lra). set (q := u0 / (u0 + d0)) in *. split; nra.
Qed.
Definition complement (x : num) : num := nsub (Fin 100) x.
Lemma strength_swap : forall u d, nonneg u -> nonneg d -> strength d u = complement (strength u d).
Proof.
  intros u d [->|(u0 & -> & U)] [->|(d0 & -> & D)]; try reflexivity. rewrite !strength_vals by auto. rewrite (Rplus_comm d0 u0). destruct (Req_EM_T (u0 + d0) 0) as [E|E]; [reflexivity|].
  unfold complement. cbn. f_equal. field. auto.
Qed.
Lemma nth_where : forall c v l j, (j < length l)%nat -> nth j (where0 c v l) NaN = if c (nth j l NaN) then v (nth j l NaN) else Fin 0.
Proof.
  intros c v l. unfold where0. induction l as [|x l IH]; intros j Hj; cbn [length] in Hj; [lia|]. destruct j; [reflexivity|]. cbn [map nth]. apply IH. lia.
Qed.
Lemma len_where : forall c v l, length (where0 c v l) = length l. Proof. intros. apply map_length. Qed.
Lemma gain_nonneg : forall ts j x, nth j (gains ts) NaN = Fin x -> 0 <= x.
Proof.
  intros ts j x H. unfold gains in H.
  destruct (Nat.lt_ge_cases j (length (diff 1 ts))) as [Hj|Hj]; [|rewrite nth_overflow in H by (rewrite len_where; auto); discriminate].
  rewrite nth_where in H by auto.
  destruct (nth j (diff 1 ts) NaN) as [y| | |]; unfold ngtb, nltb in H; cbn in H; try (injection H as <-; lra); try discriminate. unfold rltb in H. destruct (Rlt_dec 0 y); injection H as <-; lra.
Qed.
Lemma loss_nonneg : forall ts j x, nth j (losses ts) NaN = Fin x -> 0 <= x.
Proof.
  intros ts j x H. unfold losses in H.
  destruct (Nat.lt_ge_cases j (length (diff 1 ts))) as [Hj|Hj]; [|rewrite nth_overflow in H by (rewrite len_where; auto); discriminate].
  rewrite nth_where in H by auto.
  destruct (nth j (diff 1 ts) NaN) as [y| | |]; unfold ngtb, nltb in H; cbn in H; try (injection H as <-; lra); try discriminate. unfold rltb in H. destruct (Rlt_dec y 0); injection H as <-; lra.
Qed.
Lemma roll_mean_nonneg : forall w l i, (forall j x, nth j l NaN = Fin x -> 0 <= x) -> nonneg (nth i (roll w agg_mean l) NaN).
Proof.
  intros w l i H. apply roll_nonneg. intros v Hv. destruct v as [|x v]; [left; apply agg_mean_nil|]. rewrite agg_mean_fin by discriminate. right. eexists. split; [reflexivity|].
  unfold rmean, Rdiv. apply Rmult_le_pos; [|left; apply Rinv_0_lt_compat, lt_0_INR; cbn; lia]. apply rsum_nonneg. intros y Hy. destruct (window_In _ _ _ _ _ Hv Hy) as (p & _ & _ & E). apply (H p); auto.
Qed.
Lemma ewm_nonneg : forall a l i, 0 <= a <= 1 -> (forall j x, nth j l NaN = Fin x -> 0 <= x) -> nonneg (nth i (ewm_run a 0 init_e l) NaN).
Proof.
  intros a l i Ha H. destruct (Nat.lt_ge_cases i (length l)) as [Hi|Hi]; [|left; apply nth_overflow; rewrite (proj1 (pref_ewm _ _ _ _)); auto].
  destruct (seen_dec l i) as [SN|N]; [|left; apply ewm_none; auto]. destruct (ewm_some a l i Ha Hi SN) as (m & E & _ & B). right. exists m. split; [auto|].
  assert (G : forall k, exists hi, forall j x, (j <= k)%nat -> nth j l NaN = Fin x -> x <= hi).
  { induction k as [|k (hi & Hk)].
    - destruct (nth 0 l NaN) as [v| | |] eqn:E0; [exists v|exists 0|exists 0|exists 0]; intros j x Hj Ej; replace j with 0%nat in Ej by lia; rewrite E0 in Ej; try discriminate. injection Ej as ->. lra.
    - destruct (nth (S k) l NaN) as [v| | |] eqn:E0; [exists (Rmax hi v)|exists hi|exists hi|exists hi]; intros j x Hj Ej; (destruct (Nat.eq_dec j (S k)) as [->|]; [rewrite E0 in Ej; try discriminate|]); try (apply (Hk j x); [lia|auto]; fail).
      + injection Ej as <-. apply Rmax_r.
      + eapply Rle_trans; [apply (Hk j x); [lia|auto]|apply Rmax_l]. }
  destruct (G i) as (hi & Hh). destruct (B 0 hi) as [B1 B2]; [|lra]. intros j x Hj Ej. split; [apply (H j)|apply (Hh j)]; auto.
Qed.
Lemma rsi_ok : forall ts p, (0 <= p)%Z -> rsi ts p = Ok (lift2 strength (roll (Z.to_nat p) agg_mean (gains ts)) (roll (Z.to_nat p) agg_mean (losses ts))).
Proof. intros. unfold rsi. rewrite !rolling_ok by auto. reflexivity. Qed.
Lemma ewm_rsi_ok : forall ts p, 1 <= p -> ewm_rsi ts p = Ok (lift2 strength (ewm_run (2 / (p + 1)) 0 init_e (gains ts)) (ewm_run (2 / (p + 1)) 0 init_e (losses ts))).
Proof. intros. unfold ewm_rsi. rewrite !ewm_span_ok by auto. reflexivity. Qed.
Theorem C58_range : forall ts i out, ((exists p, rsi ts p = Ok out) \/ (exists span, ewm_rsi ts span = Ok out)) -> within 0 100 (nth i out NaN).
Proof.
  intros ts i out [(p & H)|(p & H)].
  - unfold rsi in H. unbind H. apply rolling_inv in E as [_ ->]. apply rolling_inv in E0 as [_ ->]. injection H as <-. rewrite nth_lift2 by reflexivity.
    apply strength_range; apply roll_mean_nonneg; [apply gain_nonneg|apply loss_nonneg].
  - unfold ewm_rsi, ewm_span, rltb in H. destruct (Rlt_dec p 1); [discriminate|]. cbn [bind] in H. injection H as <-. rewrite nth_lift2 by reflexivity. pose proof (alpha_span p ltac:(lra)).
    apply strength_range; apply ewm_nonneg; try lra; [apply gain_nonneg|apply loss_nonneg].
Qed.
Lemma nsub_neg : forall x y, nsub (nneg x) (nneg y) = nneg (nsub x y).
Proof. intros [x| | |] [y| | |]; cbn; try reflexivity. f_equal. ring. Qed.
Lemma diff_neg : forall ts, diff 1 (map nneg ts) = map nneg (diff 1 ts).
Proof.
  intros ts. apply list_ext; [rewrite len_diff, !map_length, len_diff; auto|]. intros i Hi. rewrite nth_map_nan by reflexivity. rewrite !nth_diff1. destruct i as [|i]; [reflexivity|].
  rewrite !nth_map_nan by reflexivity. apply nsub_neg.
Qed.
Lemma gains_neg : forall ts, gains (map nneg ts) = losses ts.
Proof.
  intros ts. unfold gains, losses, where0. rewrite diff_neg, map_map. apply map_ext. intros [x| | |]; cbn; try reflexivity. unfold rltb. destruct (Rlt_dec 0 (- x)), (Rlt_dec x 0); try lra; reflexivity.
Qed.
Lemma losses_neg : forall ts, losses (map nneg ts) = gains ts.
Proof.
  intros ts. unfold gains, losses, where0. rewrite diff_neg, map_map. apply map_ext. intros [x| | |]; cbn; try reflexivity. unfold rltb. destruct (Rlt_dec 0 x), (Rlt_dec (- x) 0); try lra; try reflexivity. f_equal. ring.
Qed.
(** mirroring the series mirrors the index about 50 *)
Theorem C58_negation : forall ts p span,
  rsi (map nneg ts) p = (out <- rsi ts p ;; Ok (map complement out)) /\ ewm_rsi (map nneg ts) span = (out <- ewm_rsi ts span ;; Ok (map complement out)).
Proof.
  intros ts p span. split.
  - unfold rsi. rewrite gains_neg, losses_neg. unfold rolling. destruct (p <? 0)%Z; [reflexivity|]. cbn [bind]. f_equal.
    apply list_ext; [rewrite map_length, !len_lift2; lia|]. intros i Hi. rewrite nth_map_nan by reflexivity. rewrite !nth_lift2 by reflexivity. apply strength_swap; apply roll_mean_nonneg; [apply gain_nonneg|apply loss_nonneg].
  - unfold ewm_rsi. rewrite gains_neg, losses_neg. unfold ewm_span, rltb. destruct (Rlt_dec span 1); [reflexivity|]. cbn [bind]. f_equal. pose proof (alpha_span span ltac:(lra)).
    apply list_ext; [rewrite map_length, !len_lift2; lia|]. intros i Hi. rewrite nth_map_nan by reflexivity. rewrite !nth_lift2 by reflexivity. apply strength_swap; apply ewm_nonneg; try lra; [apply gain_nonneg|apply loss_nonneg].
Qed.

(** invariance *)
Lemma naff_sub : forall b c x y, 0 < b -> nsub (naff b c x) (naff b c y) = nmul (Fin b) (nsub x y).
Proof.
  intros b c x y Hb. assert (S1 : sgn_inf b true = PInf) by (unfold sgn_inf, rltb; destruct (Rlt_dec 0 b); [reflexivity|lra]). assert (S2 : sgn_inf b false = NInf) by (unfold sgn_inf, rltb; destruct (Rlt_dec 0 b); [reflexivity|lra]).
  destruct x as [x| | |], y as [y| | |]; unfold naff, nsub; cbn [nmul nadd nneg]; rewrite ?S1, ?S2; cbn [nadd nneg]; rewrite ?S1, ?S2; cbn [nadd nneg nmul]; rewrite ?S1, ?S2; try reflexivity. f_equal. ring.
Qed.
Lemma diff_aff : forall b c ts, 0 < b -> diff 1 (map (naff b c) ts) = map (nmul (Fin b)) (diff 1 ts).
Proof.
  intros b c ts Hb. apply list_ext; [rewrite len_diff, !map_length, len_diff; auto|]. intros i Hi. rewrite nth_map_nan by reflexivity. rewrite !nth_diff1. destruct i as [|i]; [reflexivity|].
  rewrite !nth_map_nan by reflexivity. apply naff_sub. auto.
Qed.
Lemma where_scale : forall b (c : num -> bool) v l, 0 < b -> (forall x, c (nmul (Fin b) x) = c x) -> (forall x, v (nmul (Fin b) x) = nmul (Fin b) (v x)) ->
  where0 c v (map (nmul (Fin b)) l) = map (nmul (Fin b)) (where0 c v l).
Proof.
  intros b c v l Hb H1 H2. unfold where0. rewrite !map_map. apply map_ext. intros x. rewrite H1, H2. destruct (c x); [reflexivity|]. cbn. f_equal. ring.
Qed.
Lemma nltb_scale0 : forall b x, 0 < b -> nltb (nmul (Fin b) x) (Fin 0) = nltb x (Fin 0).
Proof.
  intros b [x| | |] Hb; cbn; unfold sgn_inf, rltb; try reflexivity.
  - destruct (Rlt_dec (b * x) 0), (Rlt_dec x 0); try reflexivity; exfalso; nra.
  - destruct (Rlt_dec 0 b); [reflexivity|lra].
  - destruct (Rlt_dec 0 b); [reflexivity|lra].
Qed.
Lemma ngtb_scale0 : forall b x, 0 < b -> ngtb (nmul (Fin b) x) (Fin 0) = ngtb x (Fin 0).
Proof.
  intros b [x| | |] Hb; cbn; unfold sgn_inf, rltb; try reflexivity.
  - destruct (Rlt_dec 0 (b * x)), (Rlt_dec 0 x); try reflexivity; exfalso; nra.
  - destruct (Rlt_dec 0 b); [reflexivity|lra].
  - destruct (Rlt_dec 0 b); [reflexivity|lra].
Qed.
Lemma gains_aff : forall b c ts, 0 < b -> gains (map (naff b c) ts) = map (nmul (Fin b)) (gains ts) /\ losses (map (naff b c) ts) = map (nmul (Fin b)) (losses ts).
Proof.
  intros b c ts Hb. unfold gains, losses. rewrite diff_aff by auto. split; apply where_scale; auto; intros x; [apply ngtb_scale0; auto|apply nltb_scale0; auto|].
  destruct x as [x| | |]; cbn; unfold sgn_inf, rltb; try reflexivity; [f_equal; ring| |]; destruct (Rlt_dec 0 b); try reflexivity; lra.
Qed.
Lemma finite_scale : forall b l, 0 < b -> finite (map (nmul (Fin b)) l) = option_map (map (Rmult b)) (finite l).
Proof.
  intros b l Hb. induction l as [|x l IH]; [reflexivity|]. destruct x; cbn [map nmul finite]; try reflexivity; [rewrite IH; destruct (finite l); reflexivity| |];
    unfold sgn_inf, rltb; destruct (Rlt_dec 0 b); try reflexivity; lra.
Qed.
Lemma roll_scale : forall w (agg agg' : list R -> num) g l b, 0 < b -> (forall v, agg (map (Rmult b) v) = g (agg' v)) -> g NaN = NaN -> roll w agg (map (nmul (Fin b)) l) = map g (roll w agg' l).
Proof.
  intros w agg agg' g l b Hb H HN. unfold roll. rewrite map_length, map_map. apply map_ext. intros i. unfold roll_at. destruct (Nat.ltb _ _); [auto|].
  rewrite firstn_map, skipn_map, finite_scale by auto. destruct (finite _) as [v|]; cbn [option_map]; auto.
Qed.
Lemma agg_mean_scale : forall b v, agg_mean (map (Rmult b) v) = nmul (Fin b) (agg_mean v).
Proof.
  intros b [|x v]; [cbn [map]; rewrite agg_mean_nil; reflexivity|]. rewrite !agg_mean_fin by discriminate. rewrite rmean_scale. reflexivity.
Qed.
Lemma strength_scale : forall b u d, 0 < b -> nonneg u -> nonneg d -> strength (nmul (Fin b) u) (nmul (Fin b) d) = strength u d.
Proof.
  intros b u d Hb [->|(u0 & -> & U)] [->|(d0 & -> & D)]; try reflexivity. cbn [nmul]. rewrite !strength_vals by nra. 
  destruct (Req_EM_T (b * u0 + b * d0) 0) as [E|E], (Req_EM_T (u0 + d0) 0) as [E'|E']; try reflexivity; [exfalso; apply E'; nra|exfalso; apply E; nra|]. f_equal. field. split; [auto|lra].
Qed.
Lemma scale_is_aff : forall b, (forall x, naff b 0 x = nmul (Fin b) x).
Proof. intros b [x| | |]; unfold naff; cbn; try reflexivity; [f_equal; ring| |]; unfold sgn_inf; destruct (rltb 0 b), (rltb b 0); reflexivity. Qed.
(** changing the price unit (b > 0) or shifting the series changes nothing *)
Theorem C58_invariance : forall ts p span b c, 0 < b ->
  rsi (map (fun x => nadd (nmul (Fin b) x) (Fin c)) ts) p = rsi ts p /\ ewm_rsi (map (fun x => nadd (nmul (Fin b) x) (Fin c)) ts) span = ewm_rsi ts span.
Proof.
  intros ts p span b c Hb. change (fun x => nadd (nmul (Fin b) x) (Fin c)) with (naff b c). destruct (gains_aff b c ts Hb) as [G L]. split.
  - unfold rsi. rewrite G, L. unfold rolling. destruct (p <? 0)%Z; [reflexivity|]. cbn [bind]. f_equal. rewrite !(roll_scale _ agg_mean agg_mean (nmul (Fin b))) by (auto; intros; apply agg_mean_scale).
    apply list_ext; [rewrite !len_lift2, !map_length; lia|]. intros i Hi. rewrite !nth_lift2 by reflexivity. rewrite !nth_map_nan by reflexivity. apply strength_scale; auto; apply roll_mean_nonneg; [apply gain_nonneg|apply loss_nonneg].
  - unfold ewm_rsi. rewrite G, L. unfold ewm_span, rltb. destruct (Rlt_dec span 1); [reflexivity|]. cbn [bind]. f_equal. pose proof (alpha_span span ltac:(lra)). fold init_e.
    assert (SC : forall l, ewm_run (2 / (span + 1)) 0 init_e (map (nmul (Fin b)) l) = map (nmul (Fin b)) (ewm_run (2 / (span + 1)) 0 init_e l)).
    { intros l. rewrite <- !(map_ext _ _ (scale_is_aff b)). apply ewm_affine. lra. }
    rewrite !SC. apply list_ext; [rewrite !len_lift2, !map_length; lia|]. intros i Hi. rewrite !nth_lift2 by reflexivity. rewrite !nth_map_nan by reflexivity. apply strength_scale; auto; apply ewm_nonneg; try lra; [apply gain_nonneg|apply loss_nonneg].
Qed.

(** the value for a series of numbers: change j is x_j - x_{j-1}, and 0 for the first row *)
Definition change (x : list R) (j : nat) : R := match j with O => 0 | S k => nth j x 0 - nth k x 0 end.
Lemma gains_fin : forall x, gains (map Fin x) = map (fun j => Fin (Rmax (change x j) 0)) (seq 0 (length x)) /\ losses (map Fin x) = map (fun j => Fin (Rmax (- change x j) 0)) (seq 0 (length x)).
Proof.
  intros x. assert (N : forall j, (j < length x)%nat -> nth j (map Fin x) NaN = Fin (nth j x 0)).
  { intros j Hj. rewrite (nth_indep _ NaN (Fin 0)) by (rewrite map_length; auto). apply map_nth. }
  split; apply list_ext; unfold gains, losses; try (rewrite map_length, len_where, len_diff, map_length, seq_length; reflexivity); rewrite len_where, len_diff, map_length; intros j Hj; rewrite nth_seq_map' by auto.
  - rewrite nth_where by (rewrite len_diff, map_length; auto). rewrite nth_diff1. destruct j as [|j]; cbn [change].
    + cbn. rewrite Rmax_left by lra. reflexivity.
    + rewrite !N by lia. cbn. unfold rltb, Rmax, Rminus. destruct (Rlt_dec 0 _), (Rle_dec _ 0); try lra; reflexivity.
  - rewrite nth_where by (rewrite len_diff, map_length; auto). rewrite nth_diff1. destruct j as [|j]; cbn [change].
    + cbn. rewrite Rmax_right by lra. reflexivity.
    + rewrite !N by lia. unfold nsub. cbn [nneg nadd nltb]. unfold rltb, Rmax, Rminus. destruct (Rlt_dec _ 0), (Rle_dec _ 0); try lra; reflexivity.
Qed.
Theorem C58_value : forall (x : list R) (p : nat) i, (1 <= p)%nat -> (i < length x)%nat -> exists out, rsi (map Fin x) (Z.of_nat p) = Ok out /\
  ((S i < p)%nat -> nth i out NaN = NaN) /\
  ((p <= S i)%nat ->
    let up := sumn p (fun j => Rmax (change x (S i - p + j)) 0) in let down := sumn p (fun j => Rmax (- change x (S i - p + j)) 0) in
    (up + down = 0 -> nth i out NaN = NaN) /\ (up + down <> 0 -> nth i out NaN = Fin (100 * up / (up + down)))).
Proof.
  intros x p i Hp Hi. eexists. split; [apply rsi_ok; lia|]. rewrite Nat2Z.id. rewrite nth_lift2 by reflexivity. destruct (gains_fin x) as [G L]. rewrite G, L.
  rewrite !nth_roll by (rewrite map_length, seq_length; auto). split.
  - intros H. rewrite !roll_at_none by (try (rewrite map_length, seq_length; auto); intros v (X & _); lia). reflexivity.
  - intros H. cbv zeta.
    assert (W : forall f, window_is (map (fun j => Fin (f j)) (seq 0 (length x))) p i (map (fun j => f (S i - p + j)%nat) (seq 0 p))).
    { intros f. split; [auto|]. split; [rewrite map_length, seq_length; auto|]. intros j Hj. rewrite nth_seq_map' by lia. f_equal.
      rewrite (nth_indep _ 0 (f (S i - p + 0)%nat)) by (rewrite map_length, seq_length; auto). rewrite (map_nth (fun j => f (S i - p + j)%nat) (seq 0 p) 0%nat j). rewrite seq_nth by auto. reflexivity. }
    assert (HL : forall f : nat -> num, (i < length (map f (seq 0 (length x))))%nat) by (intros; rewrite map_length, seq_length; auto).
    rewrite (roll_at_window p agg_mean _ i _ (HL _) (W (fun j => Rmax (change x j) 0))).
    rewrite (roll_at_window p agg_mean _ i _ (HL _) (W (fun j => Rmax (- change x j) 0))). cbv beta.
    rewrite !agg_mean_fin by (intros E; apply (f_equal (@length R)) in E; rewrite map_length, seq_length in E; cbn in E; lia).
    unfold rmean. rewrite !map_length, !seq_length. fold (sumn p (fun j => Rmax (change x (S i - p + j)) 0)). fold (sumn p (fun j => Rmax (- change x (S i - p + j)) 0)).
    set (up := sumn p (fun j => Rmax (change x (S i - p + j)) 0)). set (down := sumn p (fun j => Rmax (- change x (S i - p + j)) 0)).
    assert (U : 0 <= up) by (apply S_nonneg; intros; apply Rmax_r). assert (D : 0 <= down) by (apply S_nonneg; intros; apply Rmax_r).
    assert (P : 0 < INR p) by (apply lt_0_INR; lia). assert (PI : 0 < / INR p) by (apply Rinv_0_lt_compat; auto).
    rewrite strength_vals by (unfold Rdiv; apply Rmult_le_pos; lra). replace (up / INR p + down / INR p) with ((up + down) / INR p) by (field; lra).
    destruct (Req_EM_T ((up + down) / INR p) 0) as [E|E]; split; intros H1; auto.
    + exfalso. apply H1. unfold Rdiv in E. apply Rmult_integral in E. lra.
    + exfalso. apply E. rewrite H1. unfold Rdiv. ring.
    + f_equal. field. split; [lra|]. lra.
Qed.
(** prices that only rise in the window give 100, prices that only fall 0, and a flat window NaN *)
Corollary C58_extremes : forall (x : list R) (p : nat) i out, (1 <= p)%nat -> (i < length x)%nat -> (p <= S i)%nat -> rsi (map Fin x) (Z.of_nat p) = Ok out ->
  ((forall j, (j < p)%nat -> 0 <= change x (S i - p + j)) -> (exists j, (j < p)%nat /\ 0 < change x (S i - p + j)) -> nth i out NaN = Fin 100)
  /\ ((forall j, (j < p)%nat -> change x (S i - p + j) <= 0) -> (exists j, (j < p)%nat /\ change x (S i - p + j) < 0) -> nth i out NaN = Fin 0)
  /\ ((forall j, (j < p)%nat -> change x (S i - p + j) = 0) -> nth i out NaN = NaN).
Proof.
  intros x p i out Hp Hi HS H. destruct (C58_value x p i Hp Hi) as (out' & H' & _ & HV). assert (out' = out) by congruence. subst out'. destruct (HV HS) as [V1 V2]. clear HV H'.
  set (up := sumn p (fun j => Rmax (change x (S i - p + j)) 0)) in *. set (down := sumn p (fun j => Rmax (- change x (S i - p + j)) 0)) in *.
  assert (Z : forall f, (forall j, (j < p)%nat -> f j = 0) -> sumn p f = 0).
  { intros f Hf. rewrite (S_ext p f (fun j => 0 * f j)) by (intros j Hj; rewrite Hf by auto; ring). rewrite S_scal. ring. }
  assert (POS : forall f j, (forall j, (j < p)%nat -> 0 <= f j) -> (j < p)%nat -> 0 < f j -> 0 < sumn p f).
  { clear. intros f j Hf Hj Hpos. revert j Hj Hpos Hf. induction p as [|p IH]; intros j Hj Hpos Hf; [lia|]. rewrite S_succ. pose proof (Hf p ltac:(lia)).
    assert (0 <= sumn p f) by (apply S_nonneg; intros; apply Hf; lia). destruct (Nat.eq_dec j p) as [->|]; [lra|]. assert (0 < sumn p f) by (apply (IH j); try lia; try assumption; intros; apply Hf; lia). lra. }
  split; [|split].
  - intros A (j & Hj & Bj). assert (E : down = 0) by (apply Z; intros k Hk; apply Rmax_right; specialize (A k Hk); lra).
    assert (U : 0 < up) by (apply (POS _ j); auto; [intros; apply Rmax_r|rewrite Rmax_left; lra]). rewrite V2 by lra. f_equal. rewrite E. field. lra.
  - intros A (j & Hj & Bj). assert (E : up = 0) by (apply Z; intros k Hk; apply Rmax_right; specialize (A k Hk); lra).
    assert (U : 0 < down) by (apply (POS _ j); auto; [intros; apply Rmax_r|rewrite Rmax_left; lra]). rewrite V2 by lra. f_equal. rewrite E. field. lra.
  - intros A. apply V1. replace up with 0; [replace down with 0; [ring|]|]; symmetry; apply Z; intros k Hk; apply Rmax_right; rewrite A by auto; lra.
Qed.

(** ** non-trivial instances *)
Example C57_example : exists b, BollingerBands [Fin 1; Fin 3] 2 (Fin 2) = Ok b /\ built 2 b /\ nth 1 (lower b) NaN <> NaN.
Proof.
  unfold BollingerBands, rolling_mean, rolling_std. rewrite !rolling_ok by lia. cbn [bind]. eexists. split; [reflexivity|]. split.
  - apply (built_bollinger 2 [Fin 1; Fin 3] 2). unfold BollingerBands, rolling_mean, rolling_std. rewrite !rolling_ok by lia. reflexivity.
  - unfold lower. cbn [b_mean b_std b_mult]. rewrite nth_lift2, nth_map_nan by reflexivity. rewrite !nth_roll by (cbn; lia). change (Z.to_nat 2) with 2%nat.
    assert (W : window_is [Fin 1; Fin 3] 2 1 [1; 3]) by (split; [lia|split; [reflexivity|intros [|[|j]] Hj; try reflexivity; lia]]).
    rewrite (roll_at_window 2 agg_mean [Fin 1; Fin 3] 1 [1; 3] ltac:(cbn; lia) W), (roll_at_window 2 agg_std [Fin 1; Fin 3] 1 [1; 3] ltac:(cbn; lia) W). rewrite agg_mean_fin by discriminate. unfold agg_std. rewrite agg_var_fin by (cbn; lia). rewrite nsqrt_fin by (apply rvar_nonneg; cbn; lia). discriminate.
Qed.
Example C58_example : exists out, rsi (map Fin [1; 2; 4; 3]) 3 = Ok out /\ nth 0 out NaN = NaN /\ nth 2 out NaN = Fin 100 /\ nth 3 out NaN = Fin 75.
Proof.
  destruct (C58_value [1; 2; 4; 3] 3 0 ltac:(lia) ltac:(cbn; lia)) as (out & E & H0 & _). exists out. split; [auto|]. split; [apply H0; lia|].
  destruct (C58_value [1; 2; 4; 3] 3 2 ltac:(lia) ltac:(cbn; lia)) as (o2 & E2 & _ & H2). destruct (C58_value [1; 2; 4; 3] 3 3 ltac:(lia) ltac:(cbn; lia)) as (o3 & E3 & _ & H3).
  assert (o2 = out) by congruence. assert (o3 = out) by congruence. subst. specialize (H2 ltac:(lia)). specialize (H3 ltac:(lia)). cbv zeta in *. unfold sumn in *. cbn [seq map rsum fold_right change nth Nat.sub Nat.add] in *.
  unfold Rmax in *. repeat match goal with H : context [Rle_dec ?a ?b] |- _ => destruct (Rle_dec a b); try lra end.
  split; [rewrite (proj2 H2) by lra|rewrite (proj2 H3) by lra]; f_equal; field.
Qed.
Print Assumptions C57_ordering. Print Assumptions C57_percent_b_ends. Print Assumptions C57_donchian. Print Assumptions C58_range. Print Assumptions C58_negation. Print Assumptions C58_invariance.
Print Assumptions C58_value. Print Assumptions C58_extremes.
