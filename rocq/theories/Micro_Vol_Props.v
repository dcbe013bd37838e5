(** C83: what the volatility estimators compute. *)
From Coq Require Import Reals Lra Psatz ZArith List Arith Bool Lia.
From Verif Require Import Base Num Sums Feat_Ops Feat_Spec Feat_Proofs Ewm_Proofs Feat_Model Feat_Causal_Props Feat_Avg_Props Feat_Band_Props Micro_Spec Micro_Props Micro_Spread_Props Micro_Edge_Spec Micro_Edge_Props Micro_Vol_Spec.
Import ListNotations.
Open Scope R_scope.

Definition bar1 : bar := mkbar 1 1 1 1.
Definition column (g : bar -> R) (bars : list bar) : list num := map (fun x => Fin (g x)) bars.
Lemma len_column : forall g bars, length (column g bars) = length bars. Proof. intros. apply map_length. Qed.
Lemma nth_column : forall g bars j, (j < length bars)%nat -> nth j (column g bars) NaN = Fin (g (nth j bars bar1)).
Proof. intros g bars j Hj. unfold column. rewrite (nth_indep _ NaN (Fin (g bar1))) by (rewrite map_length; auto). exact (map_nth (fun x => Fin (g x)) bars bar1 j). Qed.
Lemma shift_column : forall g bars j, (S j < length bars)%nat -> nth (S j) (shift 1 (column g bars)) NaN = Fin (g (nth j bars bar1)).
Proof. intros g bars j Hj. rewrite nth_shift1, len_column, (proj2 (Nat.ltb_lt _ _) Hj). apply nth_column. lia. Qed.
Lemma mean_window : forall w i f, (1 <= w)%nat -> agg_mean (map (fun j => f (S i - w + j)%nat) (seq 0 w)) = Fin (window_mean w i f).
Proof. intros w i f Hw. rewrite (mean_fun w (fun j => f (S i - w + j)%nat) Hw). reflexivity. Qed.
Lemma roll_mean_window : forall w i l f, (1 <= w)%nat -> (i < length l)%nat -> (w <= S i)%nat -> (forall j, (S i - w <= j <= i)%nat -> nth j l NaN = Fin (f j)) -> nth i (roll w agg_mean l) NaN = Fin (window_mean w i f).
Proof. intros w i l f Hw Hi H HF. rewrite (roll_fun w agg_mean l i f) by (auto; intros j Hj; apply HF; lia). apply mean_window. auto. Qed.
Lemma roll_var_window : forall w i l f, (2 <= w)%nat -> (i < length l)%nat -> (w <= S i)%nat -> (forall j, (S i - w <= j <= i)%nat -> nth j l NaN = Fin (f j)) -> nth i (roll w agg_var l) NaN = Fin (window_var w i f).
Proof.
  intros w i l f Hw Hi H HF. rewrite (roll_fun w agg_var l i f) by (auto; intros j Hj; apply HF; lia). rewrite agg_var_fin by (rewrite map_length, seq_length; auto). f_equal.
  unfold rvar, rmean, window_var, window_mean, average. rewrite !map_map, !map_length, !seq_length. reflexivity.
Qed.
Lemma window_mean_lin : forall w i f g a c, window_mean w i (fun j => a * f j + c * g j) = a * window_mean w i f + c * window_mean w i g.
Proof. intros. unfold window_mean, average. rewrite S_plus, !S_scal. unfold Rdiv. ring. Qed.
Lemma window_mean_ext : forall w i f g, (forall j, (S i - w <= j)%nat -> f j = g j) -> window_mean w i f = window_mean w i g.
Proof. intros w i f g H. unfold window_mean, average. f_equal. apply S_ext. intros j Hj. apply H. lia. Qed.

Section Bars.
Variables (bars : list bar) (w i : nat).
Hypothesis P : forall x, In x bars -> priced x.
Hypothesis Hw : (1 <= w)%nat.
Hypothesis Hi : (i < length bars)%nat.
Let b j := nth j bars bar1.
Lemma pb : forall j, (j < length bars)%nat -> priced (b j). Proof. intros j Hj. apply P. apply nth_In. auto. Qed.
Lemma log_column : forall g g' j, (j < length bars)%nat -> (forall x, priced x -> 0 < g x /\ 0 < g' x) -> nth j (lift2 logratio (column g bars) (column g' bars)) NaN = Fin (ln (g (b j)) - ln (g' (b j))).
Proof. intros g g' j Hj HP. rewrite nth_lift2 by reflexivity. rewrite !nth_column by auto. destruct (HP (b j) (pb j Hj)). apply logratio_fin; auto. Qed.
Lemma log_previous : forall g g' j, (S j < length bars)%nat -> (forall x, priced x -> 0 < g x /\ 0 < g' x) -> nth (S j) (lift2 logratio (column g bars) (shift 1 (column g' bars))) NaN = Fin (ln (g (b (S j))) - ln (g' (b j))).
Proof. intros g g' j Hj HP. rewrite nth_lift2 by reflexivity. rewrite shift_column, nth_column by lia. destruct (HP (b (S j)) (pb _ Hj)). destruct (HP (b j) (pb j ltac:(lia))). apply logratio_fin; auto. Qed.
Ltac pr := let x := fresh in let H := fresh in intros x H; unfold priced in H; tauto.
Lemma val_hl : exists out, high_low_volatility (column b_h bars) (column b_l bars) (Z.of_nat w) = Ok out /\ ((S i < w)%nat -> nth i out NaN = NaN) /\ ((w <= S i)%nat -> nth i out NaN = Fin (parkinson b w i)).
Proof.
  unfold high_low_volatility. rewrite rolling_ok by lia. cbn [bind]. rewrite Nat2Z.id. eexists. split; [reflexivity|]. rewrite nth_map_nan by reflexivity. split.
  - intros H. rewrite roll_missing by (left; auto). reflexivity.
  - intros H. pose proof ln2_bounds. rewrite (roll_mean_window w i _ (fun j => square (lh b j - ll b j))); auto.
    + rewrite ndiv_fin by lra. reflexivity.
    + autorewrite with lens. rewrite !len_column. lia.
    + intros j Hj. rewrite nth_map_nan by reflexivity. rewrite log_column by (try lia; pr). reflexivity.
Qed.
Lemma val_gk : exists out, garman_klass_volatility (column b_h bars) (column b_l bars) (column b_o bars) (column b_c bars) (Z.of_nat w) = Ok out
  /\ ((S i < w)%nat -> nth i out NaN = NaN) /\ ((w <= S i)%nat -> nth i out NaN = Fin (garman_klass b w i)).
Proof.
  unfold garman_klass_volatility. rewrite !rolling_ok by lia. cbn [bind]. rewrite Nat2Z.id. eexists. split; [reflexivity|]. rewrite nth_lift2 by reflexivity. split.
  - intros H. rewrite roll_missing by (left; auto). reflexivity.
  - intros H. rewrite (roll_mean_window w i _ (fun j => 1 / 2 * square (lh b j - ll b j))), (roll_mean_window w i _ (fun j => (2 * ln 2 - 1) * square (lc b j - lo b j))); auto;
      try (autorewrite with lens; rewrite !len_column; lia); try (intros j Hj; rewrite nth_map_nan by reflexivity; rewrite log_column by (try lia; pr); reflexivity).
    unfold nsub. cbn [nneg nadd]. f_equal. unfold garman_klass.
    rewrite (window_mean_ext w i (fun j => 1 / 2 * square (lh b j - ll b j) - (2 * ln 2 - 1) * square (lc b j - lo b j)) (fun j => 1 * (1 / 2 * square (lh b j - ll b j)) + -1 * ((2 * ln 2 - 1) * square (lc b j - lo b j)))) by (intros; ring).
    rewrite window_mean_lin. ring.
Qed.
Lemma rs_at : forall j, (j < length bars)%nat -> nth j (rs_terms (column b_h bars) (column b_l bars) (column b_o bars) (column b_c bars)) NaN = Fin ((lh b j - lc b j) * (lh b j - lo b j) + (ll b j - lc b j) * (ll b j - lo b j)).
Proof.
  intros j Hj. unfold rs_terms. rewrite nth_lift2 by reflexivity. rewrite (nth_lift2 nmul _ _ j) by reflexivity. rewrite (nth_lift2 nmul _ _ j) by reflexivity. rewrite !log_column by (try lia; pr). reflexivity.
Qed.
Lemma val_rs : exists out, rogers_satchell_volatility (column b_h bars) (column b_l bars) (column b_o bars) (column b_c bars) (Z.of_nat w) = Ok out
  /\ ((S i < w)%nat -> nth i out NaN = NaN) /\ ((w <= S i)%nat -> nth i out NaN = Fin (rogers_satchell b w i)).
Proof.
  unfold rogers_satchell_volatility. rewrite !rolling_ok by lia. rewrite Nat2Z.id. eexists. split; [reflexivity|]. split.
  - intros H. apply roll_missing. left. auto.
  - intros H. apply roll_mean_window; auto; [unfold rs_terms; autorewrite with lens; rewrite !len_column; lia|]. intros j Hj. apply rs_at. lia.
Qed.
Lemma val_yz : (2 <= w)%nat -> exists out, yang_zhang_volatility (column b_h bars) (column b_l bars) (column b_o bars) (column b_c bars) (Z.of_nat w) = Ok out
  /\ ((i < w)%nat -> nth i out NaN = NaN) /\ ((w <= i)%nat -> nth i out NaN = Fin (yang_zhang_coded b w i)).
Proof.
  intros W2. unfold yang_zhang_volatility, rogers_satchell_volatility. rewrite (proj2 (Z.eqb_neq _ _)) by lia. rewrite !rolling_ok by lia. cbn [bind]. rewrite Nat2Z.id. eexists. split; [reflexivity|].
  rewrite nth_lift2 by reflexivity. rewrite (nth_lift2 nadd) by reflexivity. rewrite !nth_map_nan by reflexivity. split.
  - intros H. rewrite (roll_missing w agg_mean (map nsqr (lift2 logratio (column b_o bars) (shift 1 (column b_c bars)))) i); [reflexivity|].
    destruct (Nat.lt_ge_cases (S i) w) as [|W]; [left; auto|]. right. exists 0%nat. repeat split; try lia. intros x. rewrite nth_map_nan, nth_lift2, nth_shift1 by reflexivity. unfold logratio. rewrite ndiv_nan_r. discriminate.
  - intros H. rewrite (roll_mean_window w i _ (fun j => square (lo b j - lc b (j - 1)))); try lia.
    + rewrite (roll_mean_window w i _ (fun j => square (lc b j - lo b (j - 1)))); try lia.
      * rewrite (roll_mean_window w i _ (fun j => (lh b j - lc b j) * (lh b j - lo b j) + (ll b j - lc b j) * (ll b j - lo b j))); try lia.
        -- cbn [nmul nadd]. f_equal. unfold yang_zhang_coded, yz_weight. replace (IZR (Z.of_nat w + 1)) with (INR (w + 1)) by (rewrite INR_IZR_INZ; f_equal; lia).
           replace (IZR (Z.of_nat w - 1)) with (INR (w - 1)) by (rewrite INR_IZR_INZ; f_equal; lia). reflexivity.
        -- unfold rs_terms. autorewrite with lens. rewrite !len_column. lia.
        -- intros j Hj. apply rs_at. lia.
      * autorewrite with lens. rewrite !len_column. lia.
      * intros j Hj. destruct j as [|j]; [lia|]. rewrite nth_map_nan by reflexivity. rewrite log_previous by (try lia; pr). replace (S j - 1)%nat with j by lia. reflexivity.
    + autorewrite with lens. rewrite !len_column. lia.
    + intros j Hj. destruct j as [|j]; [lia|]. rewrite nth_map_nan by reflexivity. rewrite log_previous by (try lia; pr). replace (S j - 1)%nat with j by lia. reflexivity.
Qed.
End Bars.
(** high-low, Garman-Klass and Rogers-Satchell: one value per complete window, the published formula *)
Theorem C83_range_estimators : forall (bars : list bar) (w i : nat), (forall x, In x bars -> priced x) -> (1 <= w)%nat -> (i < length bars)%nat ->
  let b j := nth j bars bar1 in let H := column b_h bars in let L := column b_l bars in let O := column b_o bars in let C := column b_c bars in
  exists hl gk rs, high_low_volatility H L (Z.of_nat w) = Ok hl /\ garman_klass_volatility H L O C (Z.of_nat w) = Ok gk /\ rogers_satchell_volatility H L O C (Z.of_nat w) = Ok rs
  /\ ((S i < w)%nat -> nth i hl NaN = NaN /\ nth i gk NaN = NaN /\ nth i rs NaN = NaN)
  /\ ((w <= S i)%nat -> nth i hl NaN = Fin (parkinson b w i) /\ nth i gk NaN = Fin (garman_klass b w i) /\ nth i rs NaN = Fin (rogers_satchell b w i)).
Proof.
  intros bars w i P Hw Hi b H L O C. destruct (val_hl bars w i P Hw Hi) as (hl & E1 & A1 & B1). destruct (val_gk bars w i P Hw Hi) as (gk & E2 & A2 & B2). destruct (val_rs bars w i P Hw Hi) as (rs & E3 & A3 & B3).
  exists hl, gk, rs. split; [exact E1|]. split; [exact E2|]. split; [exact E3|]. split; intros X; [split; [|split]; auto|split; [|split]; auto].
Qed.
(** Yang-Zhang: defined from row w on; mean squares instead of variances, and the second return is measured from the previous bar's open *)
Theorem C83_yang_zhang : forall (bars : list bar) (w i : nat), (forall x, In x bars -> priced x) -> (2 <= w)%nat -> (i < length bars)%nat ->
  let b j := nth j bars bar1 in
  exists out, yang_zhang_volatility (column b_h bars) (column b_l bars) (column b_o bars) (column b_c bars) (Z.of_nat w) = Ok out
  /\ ((i < w)%nat -> nth i out NaN = NaN) /\ ((w <= i)%nat -> nth i out NaN = Fin (yang_zhang_coded b w i)).
Proof. intros bars w i P Hw Hi b. apply val_yz; auto. lia. Qed.
Theorem C83_yang_zhang_window_one : forall h l o c, yang_zhang_volatility h l o c 1 = Raise ZeroDivisionError. Proof. reflexivity. Qed.
(** bars without any range that rise by the factor exp d per bar: the published estimator is 0, the coded one is d^2 (1 + k) *)
Theorem C83_yang_zhang_published_refuted : forall d (w i : nat), (2 <= w)%nat -> (w <= i)%nat ->
  let b j := mkbar (exp (d * INR j)) (exp (d * INR j)) (exp (d * INR j)) (exp (d * INR j)) in
  yang_zhang_published b w i = 0 /\ yang_zhang_coded b w i = d * d * (1 + yz_weight w) /\ 0 < yz_weight w.
Proof.
  intros d w i Hw Hi b.
  assert (PW : 0 < INR w) by (apply lt_0_INR; lia).
  assert (MC : forall c, window_mean w i (fun _ => c) = c) by (intros c; unfold window_mean, average; rewrite sumn_const; field; lra).
  assert (RS : rogers_satchell b w i = 0) by (unfold rogers_satchell; rewrite (window_mean_ext w i _ (fun _ => 0)); [apply MC|intros j Hj; unfold lh, ll, lc, lo, b; cbn [b_o b_h b_l b_c]; ring]).
  assert (ST : forall j, (S i - w <= j)%nat -> lo b j - lc b (j - 1) = d) by (intros j Hj; unfold lo, lc, b; cbn [b_o b_c]; rewrite !ln_exp, minus_INR by lia; cbn [INR]; ring).
  assert (ST' : forall j, (S i - w <= j)%nat -> lc b j - lo b (j - 1) = d) by (intros j Hj; unfold lo, lc, b; cbn [b_o b_c]; rewrite !ln_exp, minus_INR by lia; cbn [INR]; ring).
  assert (VC : forall f c, (forall j, (S i - w <= j)%nat -> f j = c) -> window_var w i f = 0).
  { intros f c Hf. unfold window_var. rewrite (window_mean_ext w i f (fun _ => c)) by auto. rewrite MC. rewrite (S_ext w _ (fun _ => 0)) by (intros j Hj; rewrite Hf by lia; ring). rewrite sumn_const. unfold Rdiv. ring. }
  split; [|split].
  - unfold yang_zhang_published. rewrite RS, (VC _ d ST), (VC (fun j => lc b j - lo b j) 0); [ring|]. intros j Hj. unfold lo, lc, b. cbn. ring.
  - unfold yang_zhang_coded. rewrite RS. rewrite (window_mean_ext w i (fun j => square (lo b j - lc b (j - 1))) (fun _ => d * d)) by (intros j Hj; rewrite ST by auto; reflexivity).
    rewrite (window_mean_ext w i (fun j => square (lc b j - lo b (j - 1))) (fun _ => d * d)) by (intros j Hj; rewrite ST' by auto; reflexivity). rewrite !MC. ring.
  - unfold yz_weight. assert (0 < INR (w + 1)) by (apply lt_0_INR; lia). assert (0 < INR (w - 1)) by (apply lt_0_INR; lia). assert (0 < INR (w + 1) / INR (w - 1)) by (apply Rdiv_lt_0_compat; auto). apply Rdiv_lt_0_compat; lra.
Qed.
(** close-close: the sample variance of the gross returns; undefined for the first w rows and for w = 1 *)
Theorem C83_close_close : forall (p : list R) (w i : nat), (forall j, (j < length p)%nat -> 0 < nth j p 0) -> (1 <= w)%nat -> (i < length p)%nat ->
  exists out, close_close_volatility (map Fin p) (Z.of_nat w) = Ok out
  /\ ((i < w)%nat \/ w = 1%nat -> nth i out NaN = NaN)
  /\ ((2 <= w)%nat -> (w <= i)%nat -> nth i out NaN = Fin (window_var w i (fun j => nth j p 0 / nth (j - 1) p 0))).
Proof.
  intros p w i HP Hw Hi. unfold close_close_volatility. rewrite rolling_ok by lia. rewrite Nat2Z.id. eexists. split; [reflexivity|].
  assert (E0 : nth 0 (lift2 ndiv (map Fin p) (shift 1 (map Fin p))) NaN = NaN) by (rewrite nth_lift2, nth_shift1 by reflexivity; apply ndiv_nan_r).
  assert (ES : forall j, (S j < length p)%nat -> nth (S j) (lift2 ndiv (map Fin p) (shift 1 (map Fin p))) NaN = Fin (nth (S j) p 0 / nth j p 0)).
  { intros j Hj. rewrite nth_lift2 by reflexivity. rewrite shift_fin, nth_fin by lia. pose proof (HP j ltac:(lia)). rewrite ndiv_fin by lra. reflexivity. }
  split.
  - intros [H|H].
    + apply roll_missing. destruct (Nat.lt_ge_cases (S i) w) as [|W]; [left; auto|]. right. exists 0%nat. repeat split; try lia. rewrite E0. discriminate.
    + subst w. destruct (window_dec (lift2 ndiv (map Fin p) (shift 1 (map Fin p))) 1 i ltac:(autorewrite with lens; lia)) as [(v & V)|N].
      * rewrite nth_roll by (autorewrite with lens; lia). rewrite (roll_at_window _ _ _ _ v) by (auto; autorewrite with lens; lia). apply agg_var_short. destruct V as (_ & -> & _). lia.
      * rewrite nth_roll by (autorewrite with lens; lia). apply roll_at_none; [autorewrite with lens; lia|exact N].
  - intros W2 WI. apply roll_var_window; try lia; [autorewrite with lens; lia|]. intros [|j] Hj; [lia|]. rewrite ES by lia. replace (S j - 1)%nat with j by lia. reflexivity.
Qed.
Lemma beta_gamma : forall h l (w i : nat), ordered_prices h l -> (1 <= w)%nat -> (i < length h)%nat -> exists beta, get_beta (map Fin h) (map Fin l) (Z.of_nat w) = Ok beta /\ ((i < w)%nat -> nth i beta NaN = NaN)
  /\ ((w <= i)%nat -> nth i beta NaN = Fin (beta_of h l w i) /\ nth i (get_gamma (map Fin h) (map Fin l)) NaN = Fin (gamma_of h l i)).
Proof.
  intros h l w i V Hw Hi. pose proof V as [L V']. unfold get_beta. rewrite rolling_ok by lia. rewrite Nat2Z.id. eexists. split; [reflexivity|].
  set (sq := map nsqr (lift2 logratio (map Fin h) (map Fin l))).
  assert (LS : length sq = length h) by (unfold sq; rewrite map_length, len_lift2, !map_length; lia).
  assert (ES : forall j, (j < length h)%nat -> nth j sq NaN = Fin (range_sq h l j)).
  { intros j Hj. unfold sq. rewrite nth_map_nan, nth_lift2 by reflexivity. rewrite !nth_fin by lia. specialize (V' j Hj). rewrite logratio_fin by lra. reflexivity. }
  assert (E2 : forall j, (j < length h)%nat -> nth j (roll 2 agg_sum sq) NaN = match j with O => NaN | S k => Fin (range_sq h l k + range_sq h l j) end).
  { intros [|k] Hj; [apply roll_missing; left; lia|]. rewrite (roll_fun 2 agg_sum sq (S k) (range_sq h l)) by (try lia; intros j Hj2; apply ES; lia).
    unfold agg_sum, rsum. cbn [seq map fold_right]. apply (f_equal Fin). replace (S (S k) - 2 + 0)%nat with k by lia. replace (S (S k) - 2 + 1)%nat with (S k) by lia. ring. }
  split.
  - intros Hiw. rewrite (roll_missing w agg_mean (roll 2 agg_sum sq) i); [reflexivity|]. destruct (Nat.lt_ge_cases (S i) w) as [|W]; [left; auto|]. right. exists 0%nat. repeat split; try lia. rewrite E2 by lia. discriminate.
  - intros Hiw. split.
    + rewrite (roll_fun w agg_mean (roll 2 agg_sum sq) i (fun j => range_sq h l (j - 1) + range_sq h l j)).
      * rewrite mean_fun by auto. f_equal. unfold beta_of. f_equal. apply S_ext. intros j Hj. f_equal; f_equal; lia.
      * rewrite len_roll. lia.
      * lia.
      * intros j Hj. rewrite E2 by lia. destruct (S i - w + j)%nat as [|k] eqn:Ek; [lia|]. f_equal. f_equal. f_equal. lia.
    + unfold get_gamma. rewrite nth_map_nan, nth_lift2 by reflexivity.
      rewrite (roll_fun 2 agg_max (map Fin h) i (fun j => nth j h 0)), (roll_fun 2 agg_min (map Fin l) i (fun j => nth j l 0)) by (try (rewrite map_length); try lia; intros j Hj; apply nth_fin; lia).
      cbn [seq map agg_max agg_min fold_left]. replace (S i - 2 + 0)%nat with (i - 1)%nat by lia. replace (S i - 2 + 1)%nat with i by lia.
      pose proof (V' (i - 1)%nat ltac:(lia)) as V1. pose proof (V' i Hi) as V2. rewrite logratio_fin; [reflexivity| |].
      * pose proof (Rmax_l (nth (i - 1) h 0) (nth i h 0)). lra.
      * apply Rmin_glb_lt; lra.
Qed.
(** Becker-Parkinson: the published formula, negative estimates set to 0 *)
Theorem C83_becker_parkinson : forall h l (w i : nat), ordered_prices h l -> (1 <= w)%nat -> (i < length h)%nat -> exists out, becker_parkinson_volatility (map Fin h) (map Fin l) (Z.of_nat w) = Ok out
  /\ ((i < w)%nat -> nth i out NaN = NaN) /\ ((w <= i)%nat -> nth i out NaN = Fin (becker_parkinson h l w i)).
Proof.
  intros h l w i V Hw Hi. unfold becker_parkinson_volatility. destruct (beta_gamma h l w i V Hw Hi) as (beta & -> & A & B). cbn [bind]. eexists. split; [reflexivity|]. unfold get_sigma. cbv zeta.
  rewrite nth_map_nan by reflexivity. rewrite nth_lift2 by reflexivity. rewrite !nth_map_nan by reflexivity. split.
  - intros X. rewrite A by auto. reflexivity.
  - intros X. destruct (B X) as [-> ->]. pose proof den_pos as D. assert (K : 0 < sqrt (8 / PI)) by (apply sqrt_lt_R0, Rdiv_lt_0_compat; [lra|apply PI_RGT_0]). set (k2 := sqrt (8 / PI)) in *.
    assert (P1 : 0 < k2 * den) by (apply Rmult_lt_0_compat; auto). assert (P2 : 0 < k2 * k2 * den) by (apply Rmult_lt_0_compat; auto; apply Rmult_lt_0_compat; auto).
    pose proof (beta_of_nonneg h l w i Hw) as B0. assert (G0 : 0 <= gamma_of h l i) by apply sq_nonneg. rewrite nsqrt_fin by auto. cbn [nmul]. rewrite !ndiv_fin by lra.
    rewrite nsqrt_fin by (unfold Rdiv; apply Rmult_le_pos; [auto|left; apply Rinv_0_lt_compat; auto]). cbn [nadd]. unfold clip0. cbn [nltb]. unfold becker_parkinson. cbv zeta. fold k2. fold den.
    set (z := (/ sqrt 2 - 1) * sqrt (beta_of h l w i) / (k2 * den) + sqrt (gamma_of h l i / (k2 * k2 * den))). unfold rltb. destruct (Rlt_dec z 0); f_equal; [rewrite Rmax_left; lra|rewrite Rmax_right; lra].
Qed.
(** the first four estimators are variances, the last is a volatility: the logarithms of the prices multiplied by k multiply the former by k^2 and the latter by |k| *)
Definition log_scaled (k : R) (x y : bar) : Prop := ln (b_o y) = k * ln (b_o x) /\ ln (b_h y) = k * ln (b_h x) /\ ln (b_l y) = k * ln (b_l x) /\ ln (b_c y) = k * ln (b_c x).
Theorem C83_variance_units : forall k b b' w i, (forall j, log_scaled k (b j) (b' j)) ->
  parkinson b' w i = k * k * parkinson b w i /\ garman_klass b' w i = k * k * garman_klass b w i /\ rogers_satchell b' w i = k * k * rogers_satchell b w i /\ yang_zhang_coded b' w i = k * k * yang_zhang_coded b w i.
Proof.
  intros k b b' w i H.
  assert (O : forall j, lo b' j = k * lo b j) by (intros j; apply (H j)). assert (HH : forall j, lh b' j = k * lh b j) by (intros j; apply (H j)). assert (L : forall j, ll b' j = k * ll b j) by (intros j; apply (H j)). assert (C : forall j, lc b' j = k * lc b j) by (intros j; apply (H j)).
  assert (M : forall f g, (forall j, f j = k * k * g j) -> window_mean w i f = k * k * window_mean w i g).
  { intros f g E. rewrite (window_mean_ext w i f (fun j => k * k * g j + 0 * g j)) by (intros; rewrite E; ring). rewrite window_mean_lin. ring. }
  unfold parkinson, garman_klass, yang_zhang_coded.
  assert (RS : rogers_satchell b' w i = k * k * rogers_satchell b w i) by (unfold rogers_satchell; apply M; intros j; rewrite HH, L, C, O; ring).
  split; [rewrite (M (fun j => square (lh b' j - ll b' j)) (fun j => square (lh b j - ll b j))) by (intros j; unfold square; rewrite HH, L; ring); unfold Rdiv; ring|]. split; [apply M; intros j; unfold square; rewrite HH, L, C, O; ring|]. split; [exact RS|].
  rewrite RS. rewrite (M (fun j => square (lo b' j - lc b' (j - 1))) (fun j => square (lo b j - lc b (j - 1)))) by (intros j; unfold square; rewrite C, O; ring). rewrite (M (fun j => square (lc b' j - lo b' (j - 1))) (fun j => square (lc b j - lo b (j - 1)))) by (intros j; unfold square; rewrite C, O; ring). ring.
Qed.

(** ** non-trivial instances *)
Example C83_example : let bars := [mkbar 2 3 1 3; mkbar 3 4 2 2; mkbar 1 2 1 2] in (forall x, In x bars -> priced x) /\ exists out, high_low_volatility (column b_h bars) (column b_l bars) 2 = Ok out
  /\ nth 0 out NaN = NaN /\ nth 1 out NaN = Fin (((ln 3 - ln 1) * (ln 3 - ln 1) + (ln 4 - ln 2) * (ln 4 - ln 2)) / 2 / (4 * ln 2)).
Proof.
  intros bars. assert (P : forall x, In x bars -> priced x) by (intros x [<-|[<-|[<-|[]]]]; unfold priced; cbn; lra). split; [exact P|].
  destruct (C83_range_estimators bars 2 0 P ltac:(lia) ltac:(cbn; lia)) as (hl & gk & rs & E & _ & _ & A & _). destruct (C83_range_estimators bars 2 1 P ltac:(lia) ltac:(cbn; lia)) as (hl' & gk' & rs' & E' & _ & _ & _ & B).
  assert (hl' = hl) by congruence. subst hl'. exists hl. split; [exact E|]. split; [apply A; lia|]. destruct B as [-> _]; [lia|]. f_equal. unfold parkinson, window_mean, average, sumn, square, lh, ll. cbn [seq map rsum fold_right INR Nat.sub Nat.add nth bars b_h b_l].
  rewrite Rplus_0_r. reflexivity.
Qed.
Example C83_units_example : log_scaled 2 (mkbar 2 3 1 3) (mkbar (2 * 2) (3 * 3) (1 * 1) (3 * 3)).
Proof. unfold log_scaled. cbn [b_o b_h b_l b_c]. rewrite !ln_mult by lra. repeat split; ring. Qed.
Print Assumptions C83_range_estimators. Print Assumptions C83_yang_zhang. Print Assumptions C83_yang_zhang_window_one. Print Assumptions C83_yang_zhang_published_refuted. Print Assumptions C83_close_close. Print Assumptions C83_becker_parkinson. Print Assumptions C83_variance_units.
