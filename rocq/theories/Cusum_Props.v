(** C68: the CUSUM test. *)
From Coq Require Import Reals Lra Psatz ZArith List Arith Bool Lia.
From Verif Require Import Base Num Sums Feat_Ops Feat_Spec Feat_Proofs Ewm_Proofs Feat_Model Feat_Causal_Props Feat_Avg_Props Feat_Band_Props Micro_Spec Micro_Props Micro_Spread_Props Micro_Inv_Props Cusum_Spec.
Import ListNotations.
Open Scope R_scope.

(** ** argmax of finite numbers *)
Lemma argmax_from_fin : forall l b pos i, exists k, argmax_from (Fin b) pos i (map Fin l) = k /\
  ((k = pos /\ (forall j, (j < length l)%nat -> nth j l 0 <= b)) \/
   (exists j, k = (i + j)%nat /\ (j < length l)%nat /\ b < nth j l 0 /\ (forall m, (m < length l)%nat -> nth m l 0 <= nth j l 0) /\ (forall m, (m < j)%nat -> nth m l 0 < nth j l 0))).
Proof.
  induction l as [|x l IH]; intros b pos i; [exists pos; split; [reflexivity|left; split; [reflexivity|intros j Hj; cbn in Hj; lia]]|].
  cbn [map argmax_from is_nan nltb]. unfold rltb. destruct (Rlt_dec b x) as [B|B].
  - destruct (IH x i (S i)) as (k & -> & [(-> & H)|(j & -> & Hj & Hb & H1 & H2)]).
    + exists i. split; [reflexivity|]. right. exists 0%nat. cbn [nth length]. repeat split; try lia; try lra. intros [|m] Hm; [lra|]. apply H. lia.
    + exists (S i + j)%nat. split; [reflexivity|]. right. exists (S j). cbn [nth length]. split; [lia|]. split; [lia|]. split; [lra|]. split; [intros [|m] Hm; [lra|apply H1; lia]|intros [|m] Hm; [lra|apply H2; lia]].
  - destruct (IH b pos (S i)) as (k & -> & [(-> & H)|(j & -> & Hj & Hb & H1 & H2)]).
    + exists pos. split; [reflexivity|]. left. split; [reflexivity|]. intros [|j] Hj; cbn [nth length] in *; [lra|apply H; lia].
    + exists (S i + j)%nat. split; [reflexivity|]. right. exists (S j). cbn [nth length]. split; [lia|]. split; [lia|]. split; [lra|]. split; [intros [|m] Hm; [lra|apply H1; lia]|intros [|m] Hm; [lra|apply H2; lia]].
Qed.
Lemma argmax_fin : forall l, l <> [] -> let k := argmax (map Fin l) in (k < length l)%nat /\ (forall m, (m < length l)%nat -> nth m l 0 <= nth k l 0) /\ (forall m, (m < k)%nat -> nth m l 0 < nth k l 0).
Proof.
  intros [|x l] H; [congruence|]. cbn [map argmax]. destruct (argmax_from_fin l x 0 1) as (k & -> & [(-> & B)|(j & -> & Hj & Hb & H1 & H2)]); cbv zeta.
  - cbn [nth length]. split; [lia|]. split; [intros [|m] Hm; [lra|apply B; lia]|intros; lia].
  - cbn [length nth Nat.add]. split; [lia|]. split; [intros [|m] Hm; [lra|apply H1; lia]|intros [|m] Hm; [lra|apply H2; lia]].
Qed.
Definition positive_prices (y : list R) : Prop := forall j, (j < length y)%nat -> 0 < nth j y 0.
Lemma logs_at : forall y j, positive_prices y -> (j < length y)%nat -> nth j (map nlog (map Fin y)) NaN = Fin (lp y j).
Proof. intros y j P Hj. rewrite nth_map_nan by reflexivity. rewrite nth_fin by auto. apply nlog_fin. auto. Qed.
Lemma nsum_fins : forall l, nsum (map Fin l) = Fin (rsum l). Proof. induction l as [|x l IH]; [reflexivity|]. unfold nsum in *. cbn [map fold_right]. rewrite IH. reflexivity. Qed.
Lemma sigma_at : forall y t, positive_prices y -> (1 <= t)%nat -> (t < length y)%nat ->
  nsqrt (ndiv (nsum (map (fun i => nsqr (nsub (nth (S i) (map nlog (map Fin y)) NaN) (nth i (map nlog (map Fin y)) NaN))) (seq 0 t))) (nofnat t)) = Fin (sqrt (mean_square y t)) /\ 0 <= mean_square y t.
Proof.
  intros y t P H1 Ht. assert (PT : 0 < INR t) by (apply lt_0_INR; lia).
  assert (N : 0 <= mean_square y t) by (unfold mean_square; apply sumn_nonneg_div; [lia|intros; apply sq_nonneg]). split; [|auto].
  rewrite (map_ext_in _ (fun j => Fin ((lp y (S j) - lp y j) * (lp y (S j) - lp y j)))) by (intros j Hj; apply in_seq in Hj; rewrite !logs_at by (auto; lia); reflexivity).
  rewrite <- (map_map (fun j => (lp y (S j) - lp y j) * (lp y (S j) - lp y j)) Fin), nsum_fins. unfold nofnat. rewrite ndiv_fin by lra. apply nsqrt_fin. exact N.
Qed.
Lemma cusum_unfold : forall ly t, (1 <= t)%nat -> cusum_at ly t =
      (let sq := map (fun i => nsqr (nsub (nth (S i) ly NaN) (nth i ly NaN))) (seq 0 t) in
      let sigma := nsqrt (ndiv (nsum sq) (nofnat t)) in
      let s := map (fun n => ndiv (nsub (nth t ly NaN) (nth n ly NaN)) (nmul sigma (nsqrt (nofnat (t - n))))) (seq 0 t) in
      (np_amax s, nsqrt (nadd (Fin (46 / 10)) (nlog (nofnat (t - argmax s)))))).
Proof. intros ly [|t] H; [lia|reflexivity]. Qed.
Lemma cusum_nth : forall y t, (t < length y)%nat -> nth t (fst (cusum_test y)) NaN = fst (cusum_at (map nlog y) t) /\ nth t (snd (cusum_test y)) NaN = snd (cusum_at (map nlog y) t).
Proof. intros y t Ht. unfold cusum_test. cbn [fst snd]. generalize (map nlog y). intros ly. rewrite !map_map, !nth_seq_map' by auto. split; reflexivity. Qed.
Lemma ln_INR : forall a b, (1 <= a <= b)%nat -> 0 <= ln (INR a) <= ln (INR b).
Proof.
  intros a b [H1 H2]. assert (A : 1 <= INR a) by (change 1 with (INR 1); apply le_INR; auto). assert (B : INR a <= INR b) by (apply le_INR; auto).
  assert (LN : forall u v, 0 < u -> u <= v -> ln u <= ln v) by (intros u v Hu [Hv| ->]; [left; apply ln_increasing; auto|lra]). split; [rewrite <- ln_1; apply LN; lra|apply LN; lra].
Qed.
(** a series that has moved before t: the statistic is the largest departure and the critical value belongs to its first maximiser *)
Theorem C68_value : forall y t, positive_prices y -> (1 <= t)%nat -> (t < length y)%nat -> 0 < mean_square y t ->
  exists n, first_best y t n /\ nth t (fst (cusum_test (map Fin y))) NaN = Fin (departure y t n)
  /\ nth t (snd (cusum_test (map Fin y))) NaN = Fin (sqrt (46 / 10 + ln (INR (t - n)))) /\ sqrt (46 / 10) <= sqrt (46 / 10 + ln (INR (t - n))) <= sqrt (46 / 10 + ln (INR t)).
Proof.
  intros y t P H1 Ht M. destruct (cusum_nth (map Fin y) t) as [-> ->]; [rewrite map_length; auto|]. rewrite cusum_unfold by auto. cbv zeta. cbn [fst snd].
  destruct (sigma_at y t P H1 Ht) as [-> M0]. set (s := map _ (seq 0 t)). set (sg := sqrt (mean_square y t)). assert (SG : 0 < sg) by (apply sqrt_lt_R0; auto).
  assert (ES : s = map Fin (map (departure y t) (seq 0 t))).
  { unfold s. rewrite (map_map (departure y t) Fin). apply map_ext_in. intros n Hn. apply in_seq in Hn. assert (PN : 0 < INR (t - n)) by (apply lt_0_INR; lia). rewrite !logs_at by (auto; lia). unfold nofnat, nsub. rewrite nsqrt_fin by lra. cbn [nmul nneg nadd].
    assert (SK : 0 < sqrt (INR (t - n))) by (apply sqrt_lt_R0; auto). rewrite ndiv_fin by (apply Rgt_not_eq; apply Rmult_lt_0_compat; [exact SG|exact SK]). reflexivity. }
  pose proof (argmax_fin (map (departure y t) (seq 0 t))) as A. rewrite <- ES in A. cbv zeta in A. set (n := argmax s) in *.
  destruct A as (A1 & A2 & A3); [intros E; apply (f_equal (@length R)) in E; rewrite map_length, seq_length in E; cbn in E; lia|]. rewrite map_length, seq_length in *.
  assert (ND : forall m, (m < t)%nat -> nth m (map (departure y t) (seq 0 t)) 0 = departure y t m).
  { intros m Hm. rewrite (nth_indep _ 0 (departure y t 0)) by (rewrite map_length, seq_length; auto). rewrite map_nth. rewrite seq_nth by auto. reflexivity. }
  exists n. split; [split; [auto|split]|].
  - intros m Hm. rewrite <- !ND by auto. apply A2. auto.
  - intros m Hm. rewrite <- !ND by lia. apply A3. auto.
  - split; [|].
    + unfold np_amax. fold n. rewrite ES. rewrite nth_fin by (rewrite map_length, seq_length; auto). rewrite ND by auto. reflexivity.
    + assert (PN : 0 < INR (t - n)) by (apply lt_0_INR; lia). unfold nofnat. rewrite nlog_fin by auto. cbn [nadd]. destruct (ln_INR (t - n) t ltac:(lia)) as [L1 L2].
      split; [apply nsqrt_fin; lra|]. split; apply sqrt_le_1; lra.
Qed.
(** rows before any movement: no statistic, the critical value of the whole past *)
Theorem C68_no_movement : forall y t, positive_prices y -> (1 <= t)%nat -> (t < length y)%nat -> mean_square y t = 0 ->
  nth t (fst (cusum_test (map Fin y))) NaN = NaN /\ nth t (snd (cusum_test (map Fin y))) NaN = Fin (sqrt (46 / 10 + ln (INR t))).
Proof.
  intros y t P H1 Ht M. destruct (cusum_nth (map Fin y) t) as [-> ->]; [rewrite map_length; auto|]. rewrite cusum_unfold by auto. cbv zeta. cbn [fst snd].
  destruct (sigma_at y t P H1 Ht) as [-> _]. rewrite M, sqrt_0.
  assert (CONST : forall j, (j <= t)%nat -> lp y j = lp y 0).
  { assert (T0 : sumn t (fun j => (lp y (S j) - lp y j) * (lp y (S j) - lp y j)) = 0).
    { unfold mean_square in M. assert (0 < INR t) by (apply lt_0_INR; lia). apply (Rmult_eq_reg_r (/ INR t)); [unfold Rdiv in M; lra|apply Rinv_neq_0_compat; lra]. }
    induction j as [|j IH]; intros Hj; [reflexivity|]. rewrite <- IH by lia. pose proof (S_ge_term t (fun j => (lp y (S j) - lp y j) * (lp y (S j) - lp y j)) j ltac:(lia) ltac:(intros; apply sq_nonneg)) as B. cbv beta in B. rewrite T0 in B. pose proof (sq_nonneg (lp y (S j) - lp y j)).
    assert (Z : (lp y (S j) - lp y j) * (lp y (S j) - lp y j) = 0) by lra. apply Rmult_integral in Z. lra. }
  set (s := map _ (seq 0 t)). assert (ES : s = repeat NaN t).
  { apply list_ext; [unfold s; rewrite map_length, seq_length, repeat_length; reflexivity|]. unfold s. rewrite map_length, seq_length. intros n Hn. rewrite nth_seq_map' by auto. rewrite nth_repeat. rewrite !logs_at by (auto; lia). rewrite (CONST t), (CONST n) by lia.
    unfold nofnat, nsub. rewrite nsqrt_fin by apply pos_INR. cbn [nmul nneg nadd]. rewrite Rmult_0_l. replace (lp y 0 + - lp y 0) with 0 by ring. apply zero_div_zero. }
  assert (EA : argmax s = 0%nat) by (rewrite ES; destruct t as [|[|t]]; reflexivity). split.
  - unfold np_amax. rewrite EA, ES. destruct t; reflexivity.
  - rewrite EA. replace (t - 0)%nat with t by lia. unfold nofnat. rewrite nlog_fin by (apply lt_0_INR; lia). cbn [nadd]. apply nsqrt_fin. pose proof (ln_INR t t ltac:(lia)). lra.
Qed.
(** shape and first row *)
Theorem C68_shape : forall y, length (fst (cusum_test y)) = length y /\ length (snd (cusum_test y)) = length y /\ (y <> [] -> nth 0 (fst (cusum_test y)) NaN = Fin 0 /\ nth 0 (snd (cusum_test y)) NaN = Fin 0).
Proof. intros y. unfold cusum_test. cbn [fst snd]. rewrite !map_length, seq_length. split; [auto|]. split; [auto|]. intros H. destruct y as [|x y]; [congruence|]. split; reflexivity. Qed.
(** the statistic cannot exceed sqrt t: by Cauchy-Schwarz the move since n is at most sqrt((t - n) t) standard deviations.  So no break can be signalled before the fifth return *)
Lemma sum_sq : forall n (f : nat -> R), sumn n f * sumn n f <= INR n * sumn n (fun j => f j * f j).
Proof.
  induction n as [|n IH]; intros f; [rewrite !S_0; cbn; lra|]. rewrite !S_succ, S_INR. specialize (IH f). set (a := sumn n f) in *. set (q := sumn n (fun j => f j * f j)) in *. set (x := f n).
  assert (Q : 2 * a * x <= q + INR n * (x * x)).
  { destruct n as [|m]; [unfold a, q; rewrite !S_0; cbn; lra|]. set (N := INR (S m)) in *. assert (PN : 0 < N) by (apply lt_0_INR; lia). assert (a * a <= N * q) by exact IH.
    pose proof (sq_nonneg (a - N * x)). apply (Rmult_le_reg_l N); [auto|]. nra. }
  nra.
Qed.
Lemma telescope : forall y n k, lp y (n + k) - lp y n = sumn k (fun j => lp y (S (n + j)) - lp y (n + j)).
Proof. intros y n. induction k as [|k IH]; [rewrite S_0, Nat.add_0_r; ring|]. rewrite S_succ, <- IH. rewrite Nat.add_succ_r. ring. Qed.
Lemma sumn_split : forall n k f, sumn (n + k) f = sumn n f + sumn k (fun j => f (n + j)%nat).
Proof. intros n k f. induction k as [|k IH]; [rewrite Nat.add_0_r, S_0; ring|]. rewrite Nat.add_succ_r, !S_succ, IH. ring. Qed.
Theorem C68_bound : forall y t n, (n < t)%nat -> 0 < mean_square y t -> Rabs (departure y t n) <= sqrt (INR t).
Proof.
  intros y t n Hn M. set (d := fun j => lp y (S j) - lp y j). set (k := (t - n)%nat). assert (PT : 0 < INR t) by (apply lt_0_INR; lia). assert (PK : 0 < INR k) by (apply lt_0_INR; unfold k; lia).
  assert (E : lp y t - lp y n = sumn k (fun j => d (n + j)%nat)) by (replace t with (n + k)%nat at 1 by (unfold k; lia); apply telescope).
  assert (B : (lp y t - lp y n) * (lp y t - lp y n) <= INR k * (INR t * mean_square y t)).
  { rewrite E. eapply Rle_trans; [apply sum_sq|]. apply Rmult_le_compat_l; [lra|]. replace (INR t * mean_square y t) with (sumn t (fun j => d j * d j)) by (unfold mean_square, d; generalize (sumn t (fun j => (lp y (S j) - lp y j) * (lp y (S j) - lp y j))); intros z; field; lra).
    replace t with (n + k)%nat by (unfold k; lia). rewrite sumn_split. pose proof (S_nonneg n (fun j => d j * d j) ltac:(intros; apply sq_nonneg)). lra. }
  unfold departure. fold k. set (sg := sqrt (mean_square y t)). set (sk := sqrt (INR k)). assert (SG : 0 < sg) by (apply sqrt_lt_R0; auto). assert (SK : 0 < sk) by (apply sqrt_lt_R0; auto).
  assert (SG2 : sg * sg = mean_square y t) by (apply sqrt_sqrt; lra). assert (SK2 : sk * sk = INR k) by (apply sqrt_sqrt; lra). set (x := lp y t - lp y n) in *.
  rewrite <- (sqrt_Rsqr_abs (x / (sg * sk))). apply sqrt_le_1; [apply Rle_0_sqr|lra|]. unfold Rsqr. apply (Rmult_le_reg_r ((sg * sk) * (sg * sk))); [apply Rmult_lt_0_compat; apply Rmult_lt_0_compat; auto|].
  replace (x / (sg * sk) * (x / (sg * sk)) * (sg * sk * (sg * sk))) with (x * x) by (field; lra). replace (sg * sk * (sg * sk)) with ((sg * sg) * (sk * sk)) by ring. rewrite SG2, SK2. lra.
Qed.
Theorem C68_no_early_break : forall y t, positive_prices y -> (1 <= t <= 4)%nat -> (t < length y)%nat -> 0 < mean_square y t ->
  exists s c, nth t (fst (cusum_test (map Fin y))) NaN = Fin s /\ nth t (snd (cusum_test (map Fin y))) NaN = Fin c /\ s < c.
Proof.
  intros y t P Ht Hl M. destruct (C68_value y t P ltac:(lia) Hl M) as (n & (F1 & _) & E1 & E2 & B & _). exists (departure y t n), (sqrt (46 / 10 + ln (INR (t - n)))). split; [auto|]. split; [auto|].
  pose proof (C68_bound y t n F1 M) as C. assert (T4 : INR t <= 4) by (replace 4 with (INR 4) by (cbn; lra); apply le_INR; lia). assert (sqrt (INR t) < sqrt (46 / 10)) by (apply sqrt_lt_1; try lra; apply pos_INR). pose proof (Rle_abs (departure y t n)). lra.
Qed.
(** the unit of the prices does not matter, on any input *)
Theorem C68_unit : forall k y, 0 < k -> cusum_test (scaled k y) = cusum_test y.
Proof.
  intros k y Hk. unfold cusum_test. assert (L : length (scaled k y) = length y) by apply map_length. rewrite L, map_log_scale by auto.
  assert (E : map (cusum_at (map (plus (ln k)) (map nlog y))) (seq 0 (length y)) = map (cusum_at (map nlog y)) (seq 0 (length y))); [|rewrite E; reflexivity].
  apply map_ext. intros [|t]; [reflexivity|]. unfold cusum_at.
  assert (D : forall i j, nsub (nth i (map (plus (ln k)) (map nlog y)) NaN) (nth j (map (plus (ln k)) (map nlog y)) NaN) = nsub (nth i (map nlog y) NaN) (nth j (map nlog y) NaN)) by (intros i j; rewrite !(nth_map_nan (plus (ln k))) by reflexivity; apply plus_sub).
  rewrite (map_ext (fun i => nsqr (nsub (nth (S i) (map (plus (ln k)) (map nlog y)) NaN) (nth i (map (plus (ln k)) (map nlog y)) NaN))) (fun i => nsqr (nsub (nth (S i) (map nlog y) NaN) (nth i (map nlog y) NaN)))) by (intros; rewrite D; reflexivity).
  cbv zeta. set (sg := nsqrt (ndiv _ _)).
  rewrite (map_ext (fun n => ndiv (nsub (nth (S t) (map (plus (ln k)) (map nlog y)) NaN) (nth n (map (plus (ln k)) (map nlog y)) NaN)) (nmul sg (nsqrt (nofnat (S t - n)))))
                   (fun n => ndiv (nsub (nth (S t) (map nlog y) NaN) (nth n (map nlog y) NaN)) (nmul sg (nsqrt (nofnat (S t - n)))))) by (intros; rewrite D; reflexivity). reflexivity.
Qed.
(** the second row: one return, so the statistic is its sign; the documented denominator sqrt(t - n - 1) would be zero there *)
Theorem C68_first_return : forall y, positive_prices y -> (2 <= length y)%nat -> nth 1 y 0 <> nth 0 y 0 ->
  nth 1 (fst (cusum_test (map Fin y))) NaN = Fin (if Rlt_dec (nth 0 y 0) (nth 1 y 0) then 1 else -1) /\ nth 1 (snd (cusum_test (map Fin y))) NaN = Fin (sqrt (46 / 10)).
Proof.
  intros y P L N. pose proof (P 0%nat ltac:(lia)) as P0. pose proof (P 1%nat ltac:(lia)) as P1. set (x := lp y 1 - lp y 0).
  assert (X : x <> 0) by (unfold x, lp; intros E; apply N; apply ln_inv; auto; lra).
  assert (MS : mean_square y 1 = x * x) by (unfold mean_square; rewrite S_succ, S_0; cbn [INR]; fold x; field). assert (XX : 0 < x * x) by nra.
  destruct (C68_value y 1 P ltac:(lia) ltac:(lia) ltac:(lra)) as (n & (F & _) & -> & -> & _). assert (n = 0%nat) by lia. subst n. replace (1 - 0)%nat with 1%nat by lia. cbn [INR]. rewrite ln_1, Rplus_0_r. split; [|reflexivity].
  unfold departure. rewrite MS. replace (1 - 0)%nat with 1%nat by lia. cbn [INR]. rewrite sqrt_1, Rmult_1_r. fold x. fold (Rsqr x). rewrite sqrt_Rsqr_abs. f_equal.
  destruct (Rlt_dec (nth 0 y 0) (nth 1 y 0)) as [LT|GE].
  - assert (0 < x) by (unfold x, lp; pose proof (ln_increasing _ _ P0 LT); lra). rewrite Rabs_pos_eq by lra. field. auto.
  - assert (x < 0) by (unfold x, lp; pose proof (ln_increasing (nth 1 y 0) (nth 0 y 0) P1 ltac:(lra)); lra). rewrite Rabs_left by lra. field. auto.
Qed.
Example C68_example : positive_prices [1; 2; 4] /\ 0 < mean_square [1; 2; 4] 2 /\ nth 1 (fst (cusum_test (map Fin [1; 2; 4]))) NaN = Fin 1.
Proof.
  assert (P : positive_prices [1; 2; 4]) by (intros [|[|[|j]]] Hj; cbn [nth]; try lra; cbn in Hj; lia). split; [exact P|]. split.
  - unfold mean_square, lp. rewrite !S_succ, S_0. cbn [nth INR]. rewrite ln_1. pose proof ln2_bounds. pose proof (sq_nonneg (ln 4 - ln 2)). assert (0 < ln 2 * ln 2) by nra. replace (ln 2 - 0) with (ln 2) by ring. lra.
  - destruct (C68_first_return [1; 2; 4] P ltac:(cbn; lia) ltac:(cbn; lra)) as [E _]. rewrite E. cbn [nth]. destruct (Rlt_dec 1 2); [reflexivity|lra].
Qed.
Print Assumptions C68_value. Print Assumptions C68_no_movement. Print Assumptions C68_shape. Print Assumptions C68_bound. Print Assumptions C68_no_early_break. Print Assumptions C68_unit. Print Assumptions C68_first_return.
