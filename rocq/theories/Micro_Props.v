(** C61, C63, C65, C66, C67: volatility and spread estimators, VPIN, price impact and Roll measure. *)
From Coq Require Import Reals Lra Psatz ZArith List Arith Bool Lia.
From Verif Require Import Base Num Sums Feat_Ops Feat_Spec Feat_Proofs Ewm_Proofs Feat_Model Feat_Causal_Props Feat_Avg_Props Feat_Band_Props Micro_Spec.
Import ListNotations.
Open Scope R_scope.

(** ** windows of series given by a function of the row *)
Lemma window_fun : forall l w i f, (w <= S i)%nat -> (forall j, (j < w)%nat -> nth (S i - w + j) l NaN = Fin (f (S i - w + j)%nat)) ->
  window_is l w i (map (fun j => f (S i - w + j)%nat) (seq 0 w)).
Proof.
  intros l w i f H1 H. split; [auto|]. split; [rewrite map_length, seq_length; auto|]. intros j Hj. rewrite H by auto. f_equal.
  rewrite (nth_indep _ 0 (f (S i - w + 0)%nat)) by (rewrite map_length, seq_length; auto). rewrite (map_nth (fun j => f (S i - w + j)%nat) (seq 0 w) 0%nat j). rewrite seq_nth by auto. reflexivity.
Qed.
Lemma roll_fun : forall w agg l i f, (i < length l)%nat -> (w <= S i)%nat -> (forall j, (j < w)%nat -> nth (S i - w + j) l NaN = Fin (f (S i - w + j)%nat)) ->
  nth i (roll w agg l) NaN = agg (map (fun j => f (S i - w + j)%nat) (seq 0 w)).
Proof. intros w agg l i f Hi H1 H. rewrite nth_roll by auto. apply roll_at_window; auto. apply window_fun; auto. Qed.
Lemma roll_missing : forall w agg l i, ((S i < w)%nat \/ exists p, (S i - w <= p)%nat /\ (p <= i)%nat /\ (w <= S i)%nat /\ forall x, nth p l NaN <> Fin x) -> nth i (roll w agg l) NaN = NaN.
Proof.
  intros w agg l i H. destruct (Nat.lt_ge_cases i (length l)) as [Hi|Hi]; [|apply nth_roll_over; auto]. rewrite nth_roll by auto. apply roll_at_none; auto. intros v (A & B & C).
  destruct H as [H|(p & P1 & P2 & P3 & P4)]; [lia|]. apply (P4 (nth (p - (S i - w)) v 0)). rewrite <- C by lia. f_equal. lia.
Qed.
Lemma mean_fun : forall w f, (1 <= w)%nat -> agg_mean (map f (seq 0 w)) = Fin (sumn w f / INR w).
Proof.
  intros w f Hw. rewrite agg_mean_fin by (intros E; apply (f_equal (@length R)) in E; rewrite map_length, seq_length in E; cbn in E; lia).
  unfold rmean, sumn. rewrite map_length, seq_length. reflexivity.
Qed.
Lemma nth_fin : forall (x : list R) i, (i < length x)%nat -> nth i (map Fin x) NaN = Fin (nth i x 0).
Proof. intros x i Hi. rewrite (nth_indep _ NaN (Fin 0)) by (rewrite map_length; auto). apply map_nth. Qed.
Lemma fin_inside : forall (l : list num) i x, nth i l NaN = Fin x -> (i < length l)%nat.
Proof. intros l i x E. destruct (Nat.lt_ge_cases i (length l)); auto. rewrite nth_overflow in E by auto. discriminate. Qed.
Lemma logratio_fin : forall a b, 0 < a -> 0 < b -> logratio (Fin a) (Fin b) = Fin (ln a - ln b).
Proof.
  intros a b Ha Hb. unfold logratio. rewrite ndiv_fin by lra. rewrite nlog_fin by (apply Rdiv_lt_0_compat; auto). f_equal. unfold Rdiv. rewrite ln_mult, ln_Rinv; auto. apply Rinv_0_lt_compat. auto.
Qed.
Lemma logratio_nan : logratio NaN NaN = NaN. Proof. reflexivity. Qed.
Lemma sq_nonneg : forall x, 0 <= x * x. Proof. intros. apply Rle_0_sqr. Qed.
Lemma nsqr_sign : forall x, nonneg (nsqr x) \/ nsqr x = PInf.
Proof. intros [x| | |]; cbn; [left; right; exists (x * x); split; [reflexivity|apply sq_nonneg]|left; left; reflexivity|right; reflexivity|right; reflexivity]. Qed.
Lemma rolled_nonneg : forall w l i, (forall j x, nth j l NaN = Fin x -> 0 <= x) -> nonneg (nth i (roll w agg_mean l) NaN).
Proof. intros. apply roll_mean_nonneg. auto. Qed.
Lemma nonneg_add : forall x y, nonneg x -> nonneg y -> nonneg (nadd x y).
Proof. intros x y [->|(a & -> & A)] [->|(b & -> & B)]; try (left; reflexivity). right. exists (a + b). split; [reflexivity|lra]. Qed.
Lemma nonneg_scale : forall c x, 0 <= c -> nonneg x -> nonneg (nmul (Fin c) x).
Proof. intros c x Hc [->|(a & -> & A)]; [left; reflexivity|]. right. exists (c * a). split; [reflexivity|apply Rmult_le_pos; auto]. Qed.

Lemma ln2_bounds : 0 < ln 2 < 3 / 4.
Proof.
  split; [rewrite <- ln_1; apply ln_increasing; lra|]. apply (exp_lt_inv). rewrite exp_ln by lra.
  assert (E : exp (3 / 4) = exp (1 / 8) ^ 6). { replace (3 / 4) with (1 / 8 + 1 / 8 + 1 / 8 + 1 / 8 + 1 / 8 + 1 / 8) by field. rewrite !exp_plus. ring. }
  rewrite E. pose proof (exp_ineq1 (1 / 8) ltac:(lra)) as B. set (e := exp (1 / 8)) in *. assert (H : 9 / 8 <= e) by lra.
  assert (H2 : 81 / 64 <= e * e) by nra. assert (H4 : 6561 / 4096 <= (e * e) * (e * e)) by nra. cbn [pow]. nra.
Qed.

(** ** C61 *)
(** a bar of valid_bars in terms of logarithms *)
Lemma valid_bar : forall h l o c i, valid_bars h l o c -> (i < length h)%nat -> exists a b x y,
  nth i h NaN = Fin a /\ nth i l NaN = Fin b /\ nth i o NaN = Fin x /\ nth i c NaN = Fin y /\ 0 < a /\ 0 < b /\ 0 < x /\ 0 < y
  /\ ln b <= ln x <= ln a /\ ln b <= ln y <= ln a.
Proof.
  intros h l o c i (_ & _ & _ & H) Hi. destruct (H i Hi) as (a & b & x & y & E1 & E2 & E3 & E4 & P & (X1 & X2) & (Y1 & Y2)). exists a, b, x, y.
  assert (LN : forall u v, 0 < u -> u <= v -> ln u <= ln v) by (intros u v Hu [Hv| ->]; [left; apply ln_increasing; auto|lra]).
  repeat (split; [first [assumption|lra]|]). repeat split; apply LN; lra.
Qed.
Theorem C61_all_inputs : forall h l c w out i, (high_low_volatility h l w = Ok out \/ close_close_volatility c w = Ok out) -> nonneg (nth i out NaN).
Proof.
  intros h l c w out i [H|H].
  - unfold high_low_volatility in H. unbind H. apply rolling_inv in E as [_ ->]. injection H as <-. pose proof ln2_bounds. rewrite nth_map_nan by reflexivity.
    assert (N : nonneg (nth i (roll (Z.to_nat w) agg_mean (map nsqr (lift2 logratio h l))) NaN)).
    { apply rolled_nonneg. intros j x E. rewrite nth_map_nan in E by reflexivity. destruct (nsqr_sign (nth j (lift2 logratio h l) NaN)) as [[N|(r & N & Q)]|N]; rewrite N in E; try discriminate. injection E as <-. auto. }
    destruct N as [->|(r & -> & Q)]; [left; reflexivity|]. rewrite ndiv_fin by lra. right. eexists. split; [reflexivity|]. unfold Rdiv. apply Rmult_le_pos; [auto|]. left. apply Rinv_0_lt_compat. lra.
  - unfold close_close_volatility in H. apply rolling_inv in H as [_ ->]. apply roll_nonneg. intros v _. destruct (Nat.lt_ge_cases (length v) 2); [left; apply agg_var_short; auto|].
    rewrite agg_var_fin by auto. right. eexists. split; [reflexivity|apply rvar_nonneg; lia].
Qed.
Lemma rs_value : forall h l o c i, valid_bars h l o c -> (i < length h)%nat -> exists r, nth i (rs_terms h l o c) NaN = Fin r /\ 0 <= r.
Proof.
  intros h l o c i V Hi. destruct (valid_bar h l o c i V Hi) as (a & b & x & y & E1 & E2 & E3 & E4 & Pa & Pb & Px & Py & X & Y).
  unfold rs_terms. repeat rewrite nth_lift2 by reflexivity. rewrite E1, E2, E3, E4. rewrite !logratio_fin by auto. cbn [nmul nadd]. eexists. split; [reflexivity|]. nra.
Qed.
Lemma rs_len : forall h l o c, valid_bars h l o c -> length (rs_terms h l o c) = length h.
Proof. intros h l o c (A & B & C & _). unfold rs_terms. rewrite !len_lift2. lia. Qed.
Theorem C61_rogers_satchell : forall h l o c w out i, valid_bars h l o c -> rogers_satchell_volatility h l o c w = Ok out -> nonneg (nth i out NaN).
Proof.
  intros h l o c w out i V H. unfold rogers_satchell_volatility in H. apply rolling_inv in H as [_ ->]. apply rolled_nonneg. intros j x E. pose proof (fin_inside _ _ _ E) as L. rewrite rs_len in L by auto.
  destruct (rs_value h l o c j V L) as (r & E' & R). congruence.
Qed.
Theorem C61_garman_klass : forall h l o c w out i, valid_bars h l o c -> garman_klass_volatility h l o c w = Ok out -> nonneg (nth i out NaN).
Proof.
  intros h l o c w out i V H. unfold garman_klass_volatility in H. unbind H. apply rolling_inv in E as [_ ->]. apply rolling_inv in E0 as [_ ->]. injection H as <-. rewrite nth_lift2 by reflexivity.
  set (A := map _ (lift2 logratio h l)). set (B := map _ (lift2 logratio c o)). set (n := Z.to_nat w).
  assert (LA : length A = length h) by (unfold A; rewrite map_length, len_lift2; destruct V as (A1 & _); lia).
  assert (LB : length B = length h) by (unfold B; rewrite map_length, len_lift2; destruct V as (_ & A2 & A3 & _); lia).
  assert (AB : forall j, (j < length h)%nat -> exists x y, nth j A NaN = Fin x /\ nth j B NaN = Fin y /\ y <= x).
  { intros j Hj. destruct (valid_bar h l o c j V Hj) as (a & b & x & y & E1 & E2 & E3 & E4 & Pa & Pb & Px & Py & X & Y).
    unfold A, B. rewrite !nth_map_nan, !nth_lift2 by reflexivity. rewrite E1, E2, E3, E4, !logratio_fin by auto. cbn [nsqr nmul]. do 2 eexists. split; [reflexivity|]. split; [reflexivity|].
    pose proof ln2_bounds as B2. set (u := ln a - ln b). set (v := ln y - ln x). assert (U : - u <= v <= u) by (unfold u, v; lra).
    assert (S2 : v * v <= u * u) by nra. pose proof (sq_nonneg v). assert ((2 * ln 2 - 1) * (v * v) <= 1 / 2 * (v * v)) by nra. lra. }
  destruct (Nat.lt_ge_cases i (length h)) as [Hi|Hi]; [|rewrite !nth_roll_over by lia; left; reflexivity].
  rewrite !nth_roll by lia. destruct (window_dec A n i ltac:(lia)) as [(v & Hv)|N]; [|rewrite (roll_at_none n agg_mean A) by (auto; lia); left; reflexivity].
  destruct (window_dec B n i ltac:(lia)) as [(u & Hu)|N]; [|rewrite (roll_at_none n agg_mean B) by (auto; lia); left; rewrite nsub_nan_r; reflexivity].
  rewrite (roll_at_window n agg_mean A i v ltac:(lia) Hv), (roll_at_window n agg_mean B i u ltac:(lia) Hu).
  destruct Hv as (W1 & W2 & W3). destruct Hu as (_ & U2 & U3).
  destruct (Nat.eq_dec n 0) as [Z|NZ]; [destruct v; [rewrite agg_mean_nil; left; reflexivity|cbn in W2; lia]|].
  rewrite !agg_mean_fin by (intros X; subst; cbn in *; lia). cbn [nsub nneg nadd]. right. eexists. split; [reflexivity|].
  unfold rmean. rewrite W2, U2. assert (P : 0 < INR n) by (apply lt_0_INR; lia).
  assert (S1 : forall z : list R, length z = n -> rsum z = sumn n (fun j => nth j z 0)).
  { intros z <-. unfold sumn. f_equal. apply (nth_ext _ _ 0 0); [rewrite map_length, seq_length; reflexivity|]. intros j Hj. rewrite (nth_indep (map _ _) 0 (nth 0 z 0)) by (rewrite map_length, seq_length; auto).
    rewrite (map_nth (fun j => nth j z 0) (seq 0 (length z)) 0%nat j). rewrite seq_nth by auto. reflexivity. }
  rewrite !S1 by auto.
  assert (LE : sumn n (fun j => nth j u 0) <= sumn n (fun j => nth j v 0)).
  { apply S_le. intros j Hj. destruct (AB (S i - n + j)%nat ltac:(lia)) as (x & y & X & Y & L). rewrite W3 in X by auto. rewrite U3 in Y by auto. injection X as X. injection Y as Y. lra. }
  assert (I : 0 < / INR n) by (apply Rinv_0_lt_compat; auto). unfold Rdiv. nra.
Qed.
Theorem C61_yang_zhang : forall h l o c w out i, (2 <= w)%Z -> valid_bars h l o c -> yang_zhang_volatility h l o c w = Ok out -> nonneg (nth i out NaN).
Proof.
  intros h l o c w out i Hw V H. unfold yang_zhang_volatility in H. destruct (Z.eqb_spec w 1); [lia|]. unbind H. injection H as <-.
  pose proof (C61_rogers_satchell h l o c w _ i V E1) as N3. apply rolling_inv in E as [_ ->]. apply rolling_inv in E0 as [_ ->].
  set (k := 34 / 100 / (134 / 100 + IZR (w + 1) / IZR (w - 1))).
  assert (K : 0 <= k <= 1).
  { assert (Q : 0 < IZR (w + 1) / IZR (w - 1)) by (apply Rdiv_lt_0_compat; apply (IZR_lt 0); lia). set (q := IZR (w + 1) / IZR (w - 1)) in *.
    assert (P : 0 < 134 / 100 + q) by lra. assert (Y : k * (134 / 100 + q) = 34 / 100) by (unfold k; field; lra). split; nra. }
  assert (SQ : forall x j y, nth j (map nsqr x) NaN = Fin y -> 0 <= y).
  { intros x j y E. rewrite nth_map_nan in E by reflexivity. destruct (nsqr_sign (nth j x NaN)) as [[N|(r & N & Q)]|N]; rewrite N in E; try discriminate. injection E as <-. auto. }
  repeat rewrite nth_lift2 by reflexivity. rewrite !nth_map_nan by reflexivity. apply nonneg_add; [apply nonneg_add|].
  - apply rolled_nonneg. apply SQ.
  - apply nonneg_scale; [lra|]. apply rolled_nonneg. apply SQ.
  - apply nonneg_scale; [lra|auto].
Qed.
Lemma hl_sq : forall h l j, positive_range h l -> (j < length h)%nat -> exists r, nth j (map nsqr (lift2 logratio h l)) NaN = Fin r /\ 0 <= r.
Proof.
  intros h l j [_ V] Hj. destruct (V j Hj) as (a & b & E1 & E2 & Pb & B). rewrite nth_map_nan, nth_lift2 by reflexivity. rewrite E1, E2, logratio_fin by lra. eexists. split; [reflexivity|]. apply sq_nonneg.
Qed.
Lemma beta_nonneg : forall h l w beta i, positive_range h l -> get_beta h l w = Ok beta -> nonneg (nth i beta NaN).
Proof.
  intros h l w beta i V H. unfold get_beta in H. apply rolling_inv in H as [_ ->]. apply rolled_nonneg. intros j x E.
  destruct (roll_cases 2 agg_sum (map nsqr (lift2 logratio h l)) j) as [N|(v & Hj & Hv & N)]; [congruence|]. rewrite N in E. injection E as <-. apply rsum_nonneg. intros y Hy.
  destruct (window_In _ _ _ _ _ Hv Hy) as (p & P1 & P2 & P3). pose proof (fin_inside _ _ _ P3) as PL. rewrite map_length, len_lift2 in PL. destruct (hl_sq h l p V) as (r & E & R); [destruct V; lia|]. congruence.
Qed.
Lemma gamma_nonneg : forall h l i, positive_range h l -> nonneg (nth i (get_gamma h l) NaN).
Proof.
  intros h l i V. unfold get_gamma. rewrite nth_map_nan, nth_lift2 by reflexivity.
  destruct (roll_cases 2 agg_max h i) as [->|(v & Hi & Hv & ->)]; [left; reflexivity|]. destruct (roll_cases 2 agg_min l i) as [->|(u & Hi' & Hu & ->)]; [left; destruct (agg_max v); reflexivity|].
  pose proof Hv as (_ & LV & _). pose proof Hu as (_ & LU & _). destruct v as [|x v]; [cbn in LV; lia|]. destruct u as [|y u]; [cbn in LU; lia|]. cbn [agg_max agg_min].
  destruct (fold_max_spec v x) as [X1 _]. destruct (fold_min_spec u y) as [Y1 _]. destruct (window_In _ _ _ _ _ Hv X1) as (p & _ & _ & P). destruct (window_In _ _ _ _ _ Hu Y1) as (q & _ & _ & Q).
  destruct V as [L V]. destruct (V p (fin_inside _ _ _ P)) as (a & b & A1 & A2 & A3 & A4). destruct (V q ltac:(pose proof (fin_inside _ _ _ Q); lia)) as (a' & b' & B1 & B2 & B3 & B4).
  assert (a = fold_left Rmax v x) by congruence. assert (b' = fold_left Rmin u y) by congruence. subst. rewrite logratio_fin by lra. right. eexists. split; [reflexivity|apply sq_nonneg].
Qed.
Lemma den_pos : 0 < den.
Proof. unfold den. assert (sqrt 2 < 3 / 2); [|lra]. apply (Rsqr_incrst_0); [|apply sqrt_pos|lra]. unfold Rsqr. rewrite sqrt_sqrt by lra. lra. Qed.
Lemma sqrt2_ge1 : 1 < sqrt 2.
Proof. apply Rsqr_incrst_0; [|lra|apply sqrt_pos]. unfold Rsqr. rewrite sqrt_sqrt by lra. lra. Qed.
Lemma k2_pos : 0 < sqrt (8 / PI).
Proof. apply sqrt_lt_R0. apply Rdiv_lt_0_compat; [lra|apply PI_RGT_0]. Qed.
Lemma clip0_nonneg : forall x, fin_or_nan x -> nonneg (clip0 x).
Proof. intros x [->|(r & ->)]; [left; reflexivity|]. unfold clip0. cbn. unfold rltb. destruct (Rlt_dec r 0); right; eexists; (split; [reflexivity|lra]). Qed.
Lemma nan_strict_clip : clip0 NaN = NaN. Proof. reflexivity. Qed.
Theorem C61_becker_parkinson : forall h l w out i, positive_range h l -> becker_parkinson_volatility h l w = Ok out -> nonneg (nth i out NaN).
Proof.
  intros h l w out i V H. unfold becker_parkinson_volatility in H. unbind H. injection H as <-. pose proof (beta_nonneg h l w _ i V E) as B. pose proof (gamma_nonneg h l i V) as G.
  unfold get_sigma. cbv zeta. pose proof den_pos as D. pose proof k2_pos as K. rewrite nth_map_nan by reflexivity. rewrite nth_lift2 by reflexivity. rewrite !nth_map_nan by reflexivity. apply clip0_nonneg.
  destruct B as [->|(b & -> & B)]; [left; reflexivity|]. destruct G as [->|(g & -> & G)]; [left; apply nadd_nan_r|].
  set (k2 := sqrt (8 / PI)) in *. assert (P1 : 0 < k2 * den) by nra. assert (P2 : 0 < k2 * k2 * den) by (apply Rmult_lt_0_compat; nra).
  rewrite nsqrt_fin by auto. cbn [nmul]. rewrite !ndiv_fin by lra. rewrite nsqrt_fin by (unfold Rdiv; apply Rmult_le_pos; [auto|left; apply Rinv_0_lt_compat; auto]). right. eexists. reflexivity.
Qed.

(** ** C63 *)
Lemma spread_range : forall a, 0 <= a -> 0 <= spread_of a < 2.
Proof.
  intros a Ha. assert (E : 1 <= exp a) by (destruct (Req_dec a 0) as [->|]; [rewrite exp_0; lra|pose proof (exp_ineq1 a ltac:(lra)); lra]).
  unfold spread_of. assert (Q : 2 * (exp a - 1) / (exp a + 1) * (exp a + 1) = 2 * (exp a - 1)) by (field; lra). set (q := 2 * (exp a - 1) / (exp a + 1)) in *. split; nra.
Qed.
Lemma spread_incr : forall a b, a < b -> spread_of a < spread_of b.
Proof.
  intros a b H. apply exp_increasing in H. pose proof (exp_pos a). pose proof (exp_pos b). unfold spread_of. apply (Rmult_lt_reg_r ((exp a + 1) * (exp b + 1))); [nra|].
  replace (2 * (exp a - 1) / (exp a + 1) * ((exp a + 1) * (exp b + 1))) with (2 * (exp a - 1) * (exp b + 1)) by (field; lra).
  replace (2 * (exp b - 1) / (exp b + 1) * ((exp a + 1) * (exp b + 1))) with (2 * (exp b - 1) * (exp a + 1)) by (field; lra). nra.
Qed.
(** where the spread is defined, it is in [0,2) *)
Theorem C63_range : forall h l w out i, positive_range h l -> corwin_schultz_spread h l w = Ok out -> nth i out NaN = NaN \/ exists s, nth i out NaN = Fin s /\ 0 <= s < 2.
Proof.
  intros h l w out i V H. unfold corwin_schultz_spread in H. unbind H. injection H as <-. pose proof (beta_nonneg h l w _ i V E) as B. pose proof (gamma_nonneg h l i V) as G.
  pose proof den_pos as D. rewrite nth_map_nan by reflexivity. unfold get_alpha. rewrite nth_map_nan by reflexivity. rewrite nth_lift2 by reflexivity. rewrite !nth_map_nan by reflexivity.
  match goal with |- context [clip0 ?x] => assert (N : nonneg (clip0 x)) end.
  { apply clip0_nonneg. destruct B as [->|(b & -> & B)]; [left; reflexivity|]. destruct G as [->|(g & -> & G)]; [left; apply nsub_nan_r|].
    rewrite nsqrt_fin by auto. cbn [nmul]. rewrite !ndiv_fin by lra. rewrite nsqrt_fin by (unfold Rdiv; apply Rmult_le_pos; [auto|left; apply Rinv_0_lt_compat; auto]). right. eexists. reflexivity. }
  destruct N as [->|(al & -> & A)]; [left; reflexivity|]. right. pose proof (spread_range al A) as R. pose proof (exp_pos al) as X. exists (spread_of al). split; [|auto].
  unfold nsub. cbn [nexp nneg nadd nmul]. rewrite ndiv_fin by lra. unfold spread_of. reflexivity.
Qed.
Lemma ordered_range : forall h l, ordered_prices h l -> positive_range (map Fin h) (map Fin l).
Proof.
  intros h l [L V]. split; [rewrite !map_length; auto|]. rewrite map_length. intros i Hi. exists (nth i h 0), (nth i l 0). rewrite !nth_fin by lia. specialize (V i Hi). repeat split; lra.
Qed.
Lemma beta_of_nonneg : forall h l w i, (1 <= w)%nat -> 0 <= beta_of h l w i.
Proof.
  intros h l w i Hw. unfold beta_of. assert (P : 0 < INR w) by (apply lt_0_INR; lia). unfold Rdiv. apply Rmult_le_pos; [|left; apply Rinv_0_lt_compat; auto].
  apply S_nonneg. intros j Hj. pose proof (sq_nonneg (ln (nth (i - w + j) h 0) - ln (nth (i - w + j) l 0))). pose proof (sq_nonneg (ln (nth (i - w + S j) h 0) - ln (nth (i - w + S j) l 0))). unfold range_sq. lra.
Qed.
Lemma coded_nonneg : forall h l w i, (1 <= w)%nat -> 0 <= coded_alpha h l w i.
Proof.
  intros h l w i Hw. unfold coded_alpha. pose proof (beta_of_nonneg h l w i Hw) as B. pose proof den_pos as D. unfold den in D. pose proof (sqrt_pos (gamma_of h l i / (3 - 2 * sqrt 2))) as G.
  assert (S0 : sqrt (beta_of h l w i) <= sqrt (2 * beta_of h l w i)) by (apply sqrt_le_1; lra). assert (0 <= (sqrt (2 * beta_of h l w i) - sqrt (beta_of h l w i)) / (3 - 2 * sqrt 2)).
  { unfold Rdiv. apply Rmult_le_pos; [lra|left; apply Rinv_0_lt_compat; auto]. } lra.
Qed.
Theorem C63_value : forall h l (w : nat) out i, ordered_prices h l -> (1 <= w)%nat -> (i < length h)%nat -> corwin_schultz_spread (map Fin h) (map Fin l) (Z.of_nat w) = Ok out ->
  ((i < w)%nat -> nth i out NaN = NaN) /\ ((w <= i)%nat -> nth i out NaN = Fin (spread_of (coded_alpha h l w i))).
Proof.
  intros h l w out i V Hw Hi H. pose proof V as [L V']. unfold corwin_schultz_spread, get_beta in H. rewrite rolling_ok in H by lia. cbn [bind] in H. rewrite Nat2Z.id in H. injection H as <-.
  rewrite nth_map_nan by reflexivity. unfold get_alpha. rewrite nth_map_nan by reflexivity. rewrite nth_lift2 by reflexivity. rewrite !nth_map_nan by reflexivity.
  set (sq := map nsqr (lift2 logratio (map Fin h) (map Fin l))).
  assert (LS : length sq = length h) by (unfold sq; rewrite map_length, len_lift2, !map_length; lia).
  assert (ES : forall j, (j < length h)%nat -> nth j sq NaN = Fin (range_sq h l j)).
  { intros j Hj. unfold sq. rewrite nth_map_nan, nth_lift2 by reflexivity. rewrite !nth_fin by lia. specialize (V' j Hj). rewrite logratio_fin by lra. reflexivity. }
  assert (E2 : forall j, (j < length h)%nat -> nth j (roll 2 agg_sum sq) NaN = match j with O => NaN | S k => Fin (range_sq h l k + range_sq h l j) end).
  { intros [|k] Hj; [apply roll_missing; left; lia|]. rewrite (roll_fun 2 agg_sum sq (S k) (range_sq h l)) by (try lia; intros j Hj2; apply ES; lia).
    unfold agg_sum, rsum. cbn [seq map fold_right]. apply (f_equal Fin). replace (S (S k) - 2 + 0)%nat with k by lia. replace (S (S k) - 2 + 1)%nat with (S k) by lia. ring. }
  split.
  - intros Hiw. rewrite (roll_missing w agg_mean (roll 2 agg_sum sq) i); [reflexivity|]. destruct (Nat.lt_ge_cases (S i) w) as [|W]; [left; auto|]. right. exists 0%nat. repeat split; try lia. rewrite E2 by lia. discriminate.
  - intros Hiw.
    assert (EB : nth i (roll w agg_mean (roll 2 agg_sum sq)) NaN = Fin (beta_of h l w i)).
    { rewrite (roll_fun w agg_mean (roll 2 agg_sum sq) i (fun j => range_sq h l (j - 1) + range_sq h l j)).
      - rewrite mean_fun by auto. f_equal. unfold beta_of. f_equal. apply S_ext. intros j Hj. f_equal; f_equal; lia.
      - rewrite len_roll. lia.
      - lia.
      - intros j Hj. rewrite E2 by lia. destruct (S i - w + j)%nat as [|k] eqn:Ek; [lia|]. f_equal. f_equal. f_equal. lia. }
    assert (EG : nth i (get_gamma (map Fin h) (map Fin l)) NaN = Fin (gamma_of h l i)).
    { unfold get_gamma. rewrite nth_map_nan, nth_lift2 by reflexivity.
      rewrite (roll_fun 2 agg_max (map Fin h) i (fun j => nth j h 0)), (roll_fun 2 agg_min (map Fin l) i (fun j => nth j l 0)) by (try (rewrite map_length); try lia; intros j Hj; apply nth_fin; lia).
      cbn [seq map agg_max agg_min fold_left]. replace (S i - 2 + 0)%nat with (i - 1)%nat by lia. replace (S i - 2 + 1)%nat with i by lia.
      pose proof (V' (i - 1)%nat ltac:(lia)) as V1. pose proof (V' i Hi) as V2. rewrite logratio_fin; [reflexivity| |].
      - pose proof (Rmax_l (nth (i - 1) h 0) (nth i h 0)). lra.
      - apply Rmin_glb_lt; lra. }
    rewrite EB, EG. pose proof den_pos as D. pose proof (beta_of_nonneg h l w i Hw) as B0. assert (G0 : 0 <= gamma_of h l i) by apply sq_nonneg.
    rewrite nsqrt_fin by auto. unfold nsub. cbn [nmul]. rewrite !ndiv_fin by lra. rewrite nsqrt_fin by (unfold Rdiv; apply Rmult_le_pos; [auto|left; apply Rinv_0_lt_compat; auto]). cbn [nneg nadd].
    assert (EA : (sqrt 2 - 1) * sqrt (beta_of h l w i) / den + - - sqrt (gamma_of h l i / den) = coded_alpha h l w i).
    { unfold coded_alpha. fold den. rewrite Ropp_involutive. f_equal. rewrite (sqrt_mult 2) by lra. f_equal. ring. }
    rewrite EA. pose proof (coded_nonneg h l w i Hw) as A0. unfold clip0. cbn [nltb]. unfold rltb. destruct (Rlt_dec (coded_alpha h l w i) 0); [lra|].
    cbn [nexp nadd nmul]. pose proof (exp_pos (coded_alpha h l w i)). rewrite ndiv_fin by lra. reflexivity.
Qed.
(** so it equals the published estimate exactly when the two-bar range is zero, and exceeds it otherwise *)
Theorem C63_published_refuted : forall h l (w : nat) i, (1 <= w)%nat ->
  spread_of (Rmax 0 (published_alpha h l w i)) <= spread_of (coded_alpha h l w i)
  /\ (spread_of (coded_alpha h l w i) = spread_of (Rmax 0 (published_alpha h l w i)) <-> gamma_of h l i = 0).
Proof.
  intros h l w i Hw. pose proof (coded_nonneg h l w i Hw) as A0. pose proof den_pos as D. unfold den in D. assert (G0 : 0 <= gamma_of h l i) by apply sq_nonneg.
  assert (GQ : 0 <= gamma_of h l i / (3 - 2 * sqrt 2)) by (unfold Rdiv; apply Rmult_le_pos; [auto|left; apply Rinv_0_lt_compat; auto]).
  pose proof (sqrt_pos (gamma_of h l i / (3 - 2 * sqrt 2))) as S0.
  assert (Z : sqrt (gamma_of h l i / (3 - 2 * sqrt 2)) = 0 <-> gamma_of h l i = 0).
  { split; intros E; [apply sqrt_eq_0 in E; auto; unfold Rdiv in E; apply Rmult_integral in E; pose proof (Rinv_0_lt_compat _ D); lra|rewrite E; unfold Rdiv; rewrite Rmult_0_l; apply sqrt_0]. }
  assert (B0 : 0 <= (sqrt (2 * beta_of h l w i) - sqrt (beta_of h l w i)) / (3 - 2 * sqrt 2)).
  { pose proof (beta_of_nonneg h l w i Hw). unfold Rdiv. apply Rmult_le_pos; [assert (sqrt (beta_of h l w i) <= sqrt (2 * beta_of h l w i)) by (apply sqrt_le_1; lra); lra|left; apply Rinv_0_lt_compat; auto]. }
  unfold published_alpha. unfold coded_alpha in *. set (x := (sqrt (2 * beta_of h l w i) - sqrt (beta_of h l w i)) / (3 - 2 * sqrt 2)) in *. set (y := sqrt (gamma_of h l i / (3 - 2 * sqrt 2))) in *.
  assert (M : Rmax 0 (x - y) <= x + y) by (apply Rmax_lub; lra).
  destruct (Req_dec y 0) as [Y|Y].
  - rewrite Y. rewrite Rminus_0_r, Rplus_0_r. rewrite Rmax_right by lra. split; [lra|]. split; intros _; [apply Z; auto|reflexivity].
  - assert (SL : Rmax 0 (x - y) < x + y) by (apply Rmax_lub_lt; lra). apply spread_incr in SL. split; [lra|]. split; intros E; [lra|]. apply Z in E. lra.
Qed.
(** and a wider two-bar range (with the same beta) gives a larger spread, where the published estimate falls *)
Theorem C63_wrong_direction : forall h l h' l' (w : nat) i, (1 <= w)%nat -> beta_of h l w i = beta_of h' l' w i -> gamma_of h l i < gamma_of h' l' i ->
  spread_of (coded_alpha h l w i) < spread_of (coded_alpha h' l' w i) /\ spread_of (Rmax 0 (published_alpha h' l' w i)) <= spread_of (Rmax 0 (published_alpha h l w i)).
Proof.
  intros h l h' l' w i Hw EB HG. pose proof den_pos as D. unfold den in D. unfold coded_alpha, published_alpha. rewrite EB. set (x := (sqrt (2 * beta_of h' l' w i) - _) / _).
  assert (G0 : 0 <= gamma_of h l i) by apply sq_nonneg. assert (P : 0 < / (3 - 2 * sqrt 2)) by (apply Rinv_0_lt_compat; auto).
  assert (S : sqrt (gamma_of h l i / (3 - 2 * sqrt 2)) < sqrt (gamma_of h' l' i / (3 - 2 * sqrt 2))) by (apply sqrt_lt_1; unfold Rdiv; nra).
  split; [apply spread_incr; lra|]. set (y := sqrt (gamma_of h l i / _)) in *. set (y' := sqrt (gamma_of h' l' i / _)) in *.
  assert (M : Rmax 0 (x - y') <= Rmax 0 (x - y)) by (apply Rmax_lub; [apply Rmax_l|eapply Rle_trans; [|apply Rmax_r]; lra]).
  destruct M as [M|M]; [left; apply spread_incr; auto|rewrite M; lra].
Qed.

(** ** non-trivial instances *)
Example C61_example_bars : valid_bars (map Fin [3; 4]) (map Fin [1; 2]) (map Fin [2; 3]) (map Fin [3; 2]) /\ positive_range (map Fin [3; 4]) (map Fin [1; 2])
  /\ exists out, yang_zhang_volatility (map Fin [3; 4]) (map Fin [1; 2]) (map Fin [2; 3]) (map Fin [3; 2]) 2 = Ok out.
Proof.
  split; [|split].
  - unfold valid_bars. cbn [map length]. repeat (split; [reflexivity|]). intros [|[|i]] Hi; [| |lia]; cbn [nth]; do 4 eexists; repeat (split; [reflexivity|]); lra.
  - split; [reflexivity|]. intros [|[|i]] Hi; [| |cbn in Hi; lia]; cbn [map nth]; do 2 eexists; repeat (split; [reflexivity|]); lra.
  - unfold yang_zhang_volatility, rogers_satchell_volatility. rewrite !rolling_ok by lia. cbn [bind]. eexists. reflexivity.
Qed.
Example C63_example : exists out s, corwin_schultz_spread (map Fin [3; 4; 3]) (map Fin [1; 2; 1]) 1 = Ok out /\ nth 0 out NaN = NaN /\ nth 2 out NaN = Fin s.
Proof.
  assert (O : ordered_prices [3; 4; 3] [1; 2; 1]) by (split; [reflexivity|intros [|[|[|i]]] Hi; cbn [nth]; try lra; cbn in Hi; lia]).
  assert (E : exists out, corwin_schultz_spread (map Fin [3; 4; 3]) (map Fin [1; 2; 1]) 1 = Ok out) by (unfold corwin_schultz_spread; unfold get_beta, get_gamma; rewrite !rolling_ok by lia; cbn [bind]; eexists; reflexivity).
  destruct E as [out E]. exists out. eexists. split; [exact E|]. split; [apply (C63_value [3;4;3] [1;2;1] 1 out 0 O); [lia|cbn; lia|exact E|lia]|].
  apply (C63_value [3;4;3] [1;2;1] 1 out 2 O); [lia|cbn; lia|exact E|lia].
Qed.
Print Assumptions C61_all_inputs. Print Assumptions C61_rogers_satchell. Print Assumptions C61_garman_klass. Print Assumptions C61_yang_zhang. Print Assumptions C61_becker_parkinson.
Print Assumptions C63_range. Print Assumptions C63_value. Print Assumptions C63_published_refuted. Print Assumptions C63_wrong_direction.
