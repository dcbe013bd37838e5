(** C62: the unit of the prices. *)
From Coq Require Import Reals Lra Psatz ZArith List Arith Bool Lia.
From Verif Require Import Base Num Sums Feat_Ops Feat_Spec Feat_Proofs Ewm_Proofs Feat_Model Feat_Causal_Props Feat_Avg_Props Feat_Band_Props Micro_Spec Micro_Props Micro_Spread_Props.
Import ListNotations.
Open Scope R_scope.

Lemma sgn_scale : forall k a p, 0 < k -> sgn_inf (k * a) p = sgn_inf a p.
Proof. intros k a p Hk. unfold sgn_inf, rltb. destruct (Rlt_dec 0 (k * a)), (Rlt_dec 0 a); try reflexivity; try (exfalso; nra). destruct (Rlt_dec (k * a) 0), (Rlt_dec a 0); try reflexivity; exfalso; nra. Qed.
Lemma sgn_pos : forall k p, 0 < k -> sgn_inf k p = if p then PInf else NInf. Proof. intros k p Hk. unfold sgn_inf, rltb. destruct (Rlt_dec 0 k); [destruct p; reflexivity|lra]. Qed.
Lemma reqb_scale : forall k a, 0 < k -> reqb (k * a) 0 = reqb a 0.
Proof. intros k a Hk. unfold reqb. destruct (Req_EM_T (k * a) 0), (Req_EM_T a 0); try reflexivity; exfalso; nra. Qed.
Lemma rltb_scale : forall k a, 0 < k -> rltb (k * a) 0 = rltb a 0 /\ rltb 0 (k * a) = rltb 0 a.
Proof. intros k a Hk. unfold rltb. split; [destruct (Rlt_dec (k * a) 0), (Rlt_dec a 0)|destruct (Rlt_dec 0 (k * a)), (Rlt_dec 0 a)]; try reflexivity; exfalso; nra. Qed.
Lemma reqb_false : forall a, reqb a 0 = false -> a <> 0. Proof. intros a H E. unfold reqb in H. destruct (Req_EM_T a 0); [discriminate|contradiction]. Qed.
Ltac sg := unfold sgn_inf, rltb; repeat (match goal with |- context [Rlt_dec ?a ?b] => destruct (Rlt_dec a b); try lra end); cbn [nmul]; unfold sgn_inf, rltb; repeat (match goal with |- context [Rlt_dec ?a ?b] => destruct (Rlt_dec a b); try lra end); reflexivity.
(** the ratio of two values in the same unit *)
Lemma ndiv_scale : forall k x y, 0 < k -> ndiv (nmul (Fin k) x) (nmul (Fin k) y) = ndiv x y.
Proof.
  intros k [x| | |] [y| | |] Hk; cbn [nmul ndiv]; rewrite ?sgn_pos by auto; try reflexivity.
  - rewrite reqb_scale, sgn_scale by auto. destruct (reqb y 0) eqn:E; [reflexivity|]. apply reqb_false in E. f_equal. field. split; lra.
  - cbn [ndiv]. rewrite (proj1 (rltb_scale k y Hk)). reflexivity.
  - cbn [ndiv]. rewrite (proj1 (rltb_scale k y Hk)). reflexivity.
Qed.
Lemma ndiv_num : forall k x y, 0 < k -> ndiv (nmul (Fin k) x) y = nmul (Fin k) (ndiv x y).
Proof.
  intros k [x| | |] [y| | |] Hk; cbn [nmul ndiv]; rewrite ?sgn_pos by auto; try reflexivity.
  - rewrite sgn_scale by auto. destruct (reqb y 0) eqn:E; [|apply reqb_false in E; cbn [nmul]; f_equal; field; auto].
    sg.
  - cbn [nmul]. f_equal. ring.
  - cbn [nmul]. f_equal. ring.
  - cbn [ndiv]. destruct (rltb y 0); cbn [nmul]; rewrite ?sgn_pos by auto; reflexivity.
  - cbn [ndiv]. destruct (rltb y 0); cbn [nmul]; rewrite ?sgn_pos by auto; reflexivity.
Qed.
Lemma ndiv_den : forall k x y, 0 < k -> ndiv x (nmul (Fin k) y) = nmul (Fin (/ k)) (ndiv x y).
Proof.
  intros k x y Hk. assert (Hi : 0 < / k) by (apply Rinv_0_lt_compat; auto). rewrite <- ndiv_num by auto. rewrite <- (ndiv_scale k (nmul (Fin (/ k)) x) y) by auto. f_equal.
  destruct x; cbn [nmul]; rewrite ?sgn_pos by auto; cbn [nmul]; rewrite ?sgn_pos by auto; try reflexivity. f_equal. field. lra.
Qed.
Lemma scaled_nan : forall k, nmul (Fin k) NaN = NaN. Proof. reflexivity. Qed.
Lemma lift2_scale : forall k f a b, (forall x y, f (nmul (Fin k) x) (nmul (Fin k) y) = f x y) -> lift2 f (scaled k a) (scaled k b) = lift2 f a b.
Proof. intros k f a b H. unfold lift2, scaled. rewrite !map_length. apply map_ext. intros i. rewrite !nth_map_nan by reflexivity. apply H. Qed.
Lemma shift_scale : forall k a, shift 1 (scaled k a) = scaled k (shift 1 a).
Proof. intros k a. apply list_ext; [unfold scaled; rewrite map_length, !len_shift, map_length; reflexivity|]. intros i Hi. unfold scaled. rewrite nth_map_nan by reflexivity. rewrite !nth_shift1. destruct i as [|i]; [reflexivity|]. rewrite map_length. destruct (Nat.ltb _ _); [apply nth_map_nan|]; reflexivity. Qed.
Lemma log_scale : forall k a b, 0 < k -> lift2 logratio (scaled k a) (scaled k b) = lift2 logratio a b.
Proof. intros k a b Hk. apply lift2_scale. intros x y. unfold logratio. rewrite ndiv_scale by auto. reflexivity. Qed.
Lemma agg_max_scale : forall k v, 0 < k -> agg_max (map (Rmult k) v) = nmul (Fin k) (agg_max v).
Proof.
  intros k [|x v] Hk; [reflexivity|]. cbn [map agg_max nmul]. f_equal. revert x. induction v as [|y v IH]; intros x; [reflexivity|]. cbn [map fold_left]. rewrite <- IH. f_equal. unfold Rmax. destruct (Rle_dec (k * x) (k * y)), (Rle_dec x y); try reflexivity; exfalso; nra.
Qed.
Lemma agg_min_scale : forall k v, 0 < k -> agg_min (map (Rmult k) v) = nmul (Fin k) (agg_min v).
Proof.
  intros k [|x v] Hk; [reflexivity|]. cbn [map agg_min nmul]. f_equal. revert x. induction v as [|y v IH]; intros x; [reflexivity|]. cbn [map fold_left]. rewrite <- IH. f_equal. unfold Rmin. destruct (Rle_dec (k * x) (k * y)), (Rle_dec x y); try reflexivity; exfalso; nra.
Qed.
Lemma gamma_scale : forall k h l, 0 < k -> get_gamma (scaled k h) (scaled k l) = get_gamma h l.
Proof.
  intros k h l Hk. unfold get_gamma. f_equal. unfold scaled. rewrite (roll_scale 2 agg_max agg_max (nmul (Fin k))), (roll_scale 2 agg_min agg_min (nmul (Fin k))) by (auto; intros; auto using agg_max_scale, agg_min_scale).
  apply (log_scale k). auto.
Qed.
(** all volatility estimators, on all inputs *)
Theorem C62_volatility : forall k h l o c w, 0 < k ->
  close_close_volatility (scaled k c) w = close_close_volatility c w
  /\ high_low_volatility (scaled k h) (scaled k l) w = high_low_volatility h l w
  /\ garman_klass_volatility (scaled k h) (scaled k l) (scaled k o) (scaled k c) w = garman_klass_volatility h l o c w
  /\ rogers_satchell_volatility (scaled k h) (scaled k l) (scaled k o) (scaled k c) w = rogers_satchell_volatility h l o c w
  /\ yang_zhang_volatility (scaled k h) (scaled k l) (scaled k o) (scaled k c) w = yang_zhang_volatility h l o c w
  /\ becker_parkinson_volatility (scaled k h) (scaled k l) w = becker_parkinson_volatility h l w.
Proof.
  intros k h l o c w Hk. unfold yang_zhang_volatility, rogers_satchell_volatility, rs_terms, garman_klass_volatility, high_low_volatility, close_close_volatility, becker_parkinson_volatility, get_beta.
  rewrite !shift_scale, !log_scale by auto. rewrite gamma_scale by auto. rewrite (lift2_scale k ndiv) by (intros; apply ndiv_scale; auto). repeat split.
Qed.
(** logarithms of prices in another unit differ by a constant *)
Definition plus (k : R) (x : num) : num := nadd (Fin k) x.
Lemma nlog_scale : forall k x, 0 < k -> nlog (nmul (Fin k) x) = plus (ln k) (nlog x).
Proof.
  intros k [x| | |] Hk; cbn [nmul nlog]; rewrite ?sgn_pos by auto; try reflexivity. rewrite (proj2 (rltb_scale k x Hk)), reqb_scale by auto. unfold rltb. destruct (Rlt_dec 0 x); [cbn; rewrite ln_mult by auto; reflexivity|]. destruct (reqb x 0); reflexivity.
Qed.
Lemma plus_sub : forall k x y, nsub (plus k x) (plus k y) = nsub x y.
Proof. intros k [x| | |] [y| | |]; unfold nsub, plus; cbn; try reflexivity. f_equal. ring. Qed.
Lemma plus_ne : forall k x y, nne (plus k x) (plus k y) = nne x y.
Proof.
  intros k [x| | |] [y| | |]; unfold nne, plus; cbn; try reflexivity. f_equal. unfold reqb. destruct (Req_EM_T (k + x) (k + y)), (Req_EM_T x y); try reflexivity; exfalso; lra.
Qed.
Lemma plus_mid : forall k x y, ndiv (nadd (plus k x) (plus k y)) (Fin 2) = plus k (ndiv (nadd x y) (Fin 2)).
Proof.
  intros k [x| | |] [y| | |]; unfold plus; cbn; try reflexivity; unfold reqb, rltb; try (destruct (Req_EM_T 2 0); [lra|]); try (destruct (Rlt_dec 2 0); [lra|]); try reflexivity. f_equal. field.
Qed.
Lemma diff_plus : forall k a, diff 1 (map (plus k) a) = diff 1 a.
Proof.
  intros k a. apply list_ext; [rewrite !len_diff, map_length; reflexivity|]. intros i Hi. rewrite !nth_diff1. destruct i as [|i]; [reflexivity|]. rewrite !nth_map_nan by reflexivity. apply plus_sub.
Qed.
Lemma map_log_scale : forall k a, 0 < k -> map nlog (scaled k a) = map (plus (ln k)) (map nlog a).
Proof. intros k a Hk. unfold scaled. rewrite !map_map. apply map_ext. intros x. apply nlog_scale. auto. Qed.
Lemma map2_plus : forall C (f : num -> num -> C) k a b, (forall x y, f (plus k x) (plus k y) = f x y) -> map2 f (map (plus k) a) (map (plus k) b) = map2 f a b.
Proof. intros C f k a b H. unfold map2. revert b. induction a as [|x a IH]; intros [|y b]; try reflexivity. cbn [map combine fst snd]. rewrite IH, H. reflexivity. Qed.
Lemma map2_mid : forall k a b, map2 (fun x y => ndiv (nadd x y) (Fin 2)) (map (plus k) a) (map (plus k) b) = map (plus k) (map2 (fun x y => ndiv (nadd x y) (Fin 2)) a b).
Proof. intros k a b. unfold map2. revert b. induction a as [|x a IH]; intros [|y b]; try reflexivity. cbn [map combine fst snd]. rewrite IH, plus_mid. reflexivity. Qed.
Lemma tl_map : forall A B (f : A -> B) l, tl (map f l) = map f (tl l). Proof. intros A B f [|x l]; reflexivity. Qed.
Lemma rl_map : forall A B (f : A -> B) l, removelast (map f l) = map f (removelast l).
Proof. intros A B f. induction l as [|x [|y l] IH]; try reflexivity. change (map f (x :: y :: l)) with (f x :: f y :: map f l). change (removelast (f x :: f y :: map f l)) with (f x :: removelast (map f (y :: l))). rewrite IH. reflexivity. Qed.
Lemma edge_s2_scale : forall k o h l c, 0 < k -> edge_s2 (scaled k o) (scaled k h) (scaled k l) (scaled k c) = edge_s2 o h l c.
Proof.
  intros k o h l c Hk. unfold edge_s2. rewrite !map_log_scale by auto. cbv zeta. rewrite map2_mid, !tl_map, !rl_map. rewrite !(map2_plus _ nne) by apply plus_ne. rewrite !(map2_plus _ nsub) by apply plus_sub. reflexivity.
Qed.
Lemma edge_scale : forall k o h l c w s, 0 < k -> edge_spread (scaled k h) (scaled k l) (scaled k o) (scaled k c) w s = edge_spread h l o c w s.
Proof.
  intros k o h l c w s Hk. unfold edge_spread. destruct (w <? 1)%Z; [reflexivity|]. f_equal. assert (LS : forall x, length (scaled k x) = length x) by (intros; apply map_length). rewrite !LS. apply map_ext. intros i. destruct (Nat.ltb _ _); [reflexivity|].
  assert (PAD : forall x n, map (fun i => nth i (scaled k x) NaN) (seq 0 n) = scaled k (map (fun i => nth i x NaN) (seq 0 n))) by (intros x n; unfold scaled; rewrite map_map; apply map_ext; intros j; apply nth_map_nan; reflexivity).
  rewrite !PAD. unfold edge_window, scaled. rewrite !firstn_map, !skipn_map. fold (scaled k). pose proof (edge_s2_scale k) as E. unfold scaled in E. rewrite E by auto. reflexivity.
Qed.
(** all spread estimators, on all inputs *)
Theorem C62_spread : forall k h l o c w s, 0 < k ->
  corwin_schultz_spread (scaled k h) (scaled k l) w = corwin_schultz_spread h l w
  /\ edge_spread (scaled k h) (scaled k l) (scaled k o) (scaled k c) w s = edge_spread h l o c w s
  /\ roll_measure (scaled k c) w = roll_measure c w.
Proof.
  intros k h l o c w s Hk. split; [|split; [apply edge_scale; auto|]].
  - unfold corwin_schultz_spread, get_beta. rewrite log_scale, gamma_scale by auto. reflexivity.
  - unfold roll_measure. rewrite map_log_scale, diff_plus by auto. reflexivity.
Qed.
(** the price impact measures carry units: price and volume rescaled by k *)
Lemma rolling_map : forall w k l, 0 < k -> rolling w agg_mean (map (nmul (Fin k)) l) = (out <- rolling w agg_mean l ;; Ok (scaled k out)).
Proof. intros w k l Hk. unfold rolling. destruct (w <? 0)%Z; [reflexivity|]. cbn [bind]. f_equal. apply roll_scale; auto. intros v. apply agg_mean_scale. Qed.
Lemma lift2_map : forall k f a b (g g' : num -> num), g NaN = NaN -> g' NaN = NaN -> f NaN NaN = NaN -> (forall x y, f (g x) (g' y) = nmul (Fin k) (f x y)) -> lift2 f (map g a) (map g' b) = map (nmul (Fin k)) (lift2 f a b).
Proof. intros k f a b g g' G G' F H. unfold lift2. rewrite !map_length, map_map. apply map_ext. intros i. rewrite !nth_map_nan by auto. apply H. Qed.
Lemma map_id' : forall l : list num, l = map (fun x => x) l. Proof. intros. rewrite map_id. reflexivity. Qed.
Lemma diff_scale : forall k a, 0 < k -> diff 1 (scaled k a) = scaled k (diff 1 a).
Proof. intros k a Hk. unfold scaled. rewrite <- (diff_aff k 0) by auto. f_equal. apply map_ext. intros x. symmetry. apply scale_is_aff. Qed.
Lemma nsign_scale : forall k x, 0 < k -> nsign (nmul (Fin k) x) = nsign x.
Proof. intros k [x| | |] Hk; cbn [nmul nsign]; rewrite ?sgn_pos by auto; try reflexivity. destruct (rltb_scale k x Hk) as [-> ->]. reflexivity. Qed.
Lemma map_sign_scale : forall k a, 0 < k -> map nsign (scaled k a) = map nsign a. Proof. intros k a Hk. unfold scaled. rewrite map_map. apply map_ext. intros x. apply nsign_scale. auto. Qed.
Lemma nmul_in : forall k x y, 0 < k -> nmul x (nmul (Fin k) y) = nmul (Fin k) (nmul x y).
Proof.
  intros k [x| | |] [y| | |] Hk; cbn [nmul]; rewrite ?sgn_pos by auto; cbn [nmul]; rewrite ?sgn_pos, ?sgn_scale by auto; try reflexivity; try (f_equal; ring);
    sg.
Qed.
Lemma lift2_mul_scale : forall k a b, 0 < k -> lift2 nmul a (scaled k b) = scaled k (lift2 nmul a b).
Proof. intros k a b Hk. rewrite (map_id' a) at 1. unfold scaled. apply lift2_map; try reflexivity. intros x y. apply nmul_in. auto. Qed.
Lemma ffill_scale : forall k a, 0 < k -> ffill (scaled k a) = scaled k (ffill a).
Proof.
  intros k a Hk. unfold ffill. change NaN with (nmul (Fin k) NaN) at 1. generalize NaN. induction a as [|x a IH]; intros z; [reflexivity|]. unfold scaled in *. cbn [map ffill_from].
  assert (E : is_nan (nmul (Fin k) x) = is_nan x) by (destruct x; cbn [nmul is_nan]; rewrite ?sgn_pos by auto; reflexivity). rewrite E. destruct (is_nan x); cbn [map]; rewrite IH; reflexivity.
Qed.
Lemma pct_scale : forall k a, 0 < k -> pct_change (scaled k a) = pct_change a.
Proof. intros k a Hk. unfold pct_change. cbv zeta. rewrite ffill_scale by auto. f_equal. rewrite shift_scale. apply lift2_scale. intros x y. apply ndiv_scale. auto. Qed.
Lemma nsqrt_scale : forall k x, 0 < k -> nsqrt (nmul (Fin k) x) = nmul (Fin (sqrt k)) (nsqrt x).
Proof.
  intros k [x| | |] Hk; cbn [nmul nsqrt]; rewrite ?sgn_pos by (auto; apply sqrt_lt_R0; auto); try reflexivity. rewrite (proj1 (rltb_scale k x Hk)). unfold rltb. destruct (Rlt_dec x 0); [reflexivity|]. cbn [nmul]. rewrite sqrt_mult by lra. reflexivity.
Qed.
Definition times (k : R) (r : res (list num)) : res (list num) := out <- r ;; Ok (scaled k out).
Lemma lift2_den : forall k a b, 0 < k -> lift2 ndiv a (scaled k b) = scaled (/ k) (lift2 ndiv a b).
Proof. intros k a b Hk. rewrite (map_id' a) at 1. unfold scaled. apply lift2_map; try reflexivity. intros x y. apply ndiv_den. auto. Qed.
Lemma lift2_num : forall k a b, 0 < k -> lift2 ndiv (scaled k a) b = scaled k (lift2 ndiv a b).
Proof. intros k a b Hk. rewrite (map_id' b) at 1. unfold scaled. apply lift2_map; try reflexivity. intros x y. apply ndiv_num. auto. Qed.
Theorem C62_impact : forall k p v w, 0 < k ->
  kyle_lambda (scaled k p) v w = times k (kyle_lambda p v w) /\ kyle_lambda p (scaled k v) w = times (/ k) (kyle_lambda p v w)
  /\ amihud_lambda (scaled k p) v w = times (/ k) (amihud_lambda p v w) /\ amihud_lambda p (scaled k v) w = times (/ k) (amihud_lambda p v w)
  /\ hasbrouck_lambda (scaled k p) v w = times (/ sqrt k) (hasbrouck_lambda p v w) /\ hasbrouck_lambda p (scaled k v) w = times (/ sqrt k) (hasbrouck_lambda p v w)
  /\ roll_impact (scaled k p) v w = times (/ k) (roll_impact p v w) /\ roll_impact p (scaled k v) w = times (/ k) (roll_impact p v w).
Proof.
  intros k p v w Hk. assert (Hi : 0 < / k) by (apply Rinv_0_lt_compat; auto). assert (Hs : 0 < sqrt k) by (apply sqrt_lt_R0; auto). assert (His : 0 < / sqrt k) by (apply Rinv_0_lt_compat; auto).
  assert (COMM : forall a b, lift2 nmul (scaled k a) b = scaled k (lift2 nmul a b)).
  { intros a b. rewrite (map_id' b) at 1. unfold scaled. apply lift2_map; try reflexivity. intros x y. destruct x as [x| | |], y as [y| | |]; cbn [nmul]; rewrite ?sgn_pos by auto; cbn [nmul]; rewrite ?sgn_pos, ?sgn_scale by auto; try reflexivity; try (f_equal; ring);
    sg. }
  assert (SQ : forall a, map nsqrt (scaled k a) = scaled (sqrt k) (map nsqrt a)) by (intros a; unfold scaled; rewrite !map_map; apply map_ext; intros x; apply nsqrt_scale; auto).
  unfold kyle_lambda, amihud_lambda, hasbrouck_lambda, roll_impact, times.
  split; [rewrite diff_scale, map_sign_scale, lift2_num by auto; apply rolling_map; auto|].
  split; [rewrite lift2_mul_scale, lift2_den by auto; apply rolling_map; auto|].
  split; [rewrite pct_scale, lift2_mul_scale, lift2_den by auto; apply rolling_map; auto|].
  split; [rewrite COMM, lift2_den by auto; apply rolling_map; auto|].
  split; [rewrite shift_scale, log_scale, lift2_mul_scale by auto; cbv zeta; rewrite SQ, (lift2_mul_scale (sqrt k)), lift2_den by auto; apply rolling_map; auto|].
  split; [rewrite COMM; cbv zeta; rewrite SQ, (lift2_mul_scale (sqrt k)), lift2_den by auto; apply rolling_map; auto|].
  split.
  - rewrite (proj2 (proj2 (C62_spread k p p p p w true Hk))). destruct (roll_measure p w); [|reflexivity]. cbn [bind]. rewrite lift2_mul_scale, lift2_den by auto. reflexivity.
  - destruct (roll_measure p w); [|reflexivity]. cbn [bind]. rewrite COMM, lift2_den by auto. reflexivity.
Qed.
Example C62_example : scaled 2 (map Fin [1; 2]) = map Fin [2 * 1; 2 * 2] /\ exists out, high_low_volatility (scaled 2 (map Fin [3; 4])) (scaled 2 (map Fin [1; 2])) 1 = Ok out.
Proof. split; [reflexivity|]. unfold high_low_volatility. rewrite rolling_ok by lia. cbn [bind]. eexists. reflexivity. Qed.
Print Assumptions C62_volatility. Print Assumptions C62_spread. Print Assumptions C62_impact.
