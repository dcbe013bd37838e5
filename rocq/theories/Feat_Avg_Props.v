(** C55, C56, C59, C60, C82: rolling statistics, exponential averages and standard deviations, MACD and average true range. *)
From Coq Require Import Reals Lra Psatz ZArith List Arith Bool Lia.
From Verif Require Import Base Num Sums Feat_Ops Feat_Spec Feat_Proofs Ewm_Proofs Feat_Model Feat_Causal_Props.
Import ListNotations.
Open Scope R_scope.

(** ** C55 *)
Theorem C55_rolling : forall ts (w : nat), (1 <= w)%nat ->
  exists mean std mx mn,
    rolling_mean ts (Z.of_nat w) = Ok mean /\ rolling_std ts (Z.of_nat w) = Ok std /\ rolling_max ts (Z.of_nat w) = Ok mx /\ rolling_min ts (Z.of_nat w) = Ok mn
    /\ forall i, (i < length ts)%nat ->
      (* a full window of numbers *)
      (exists v m lo hi, window_is ts w i v /\ nth i mean NaN = Fin m /\ nth i mn NaN = Fin lo /\ nth i mx NaN = Fin hi
        /\ m * INR w = rsum v /\ In lo v /\ In hi v /\ (forall x, In x v -> lo <= x <= hi) /\ lo <= m <= hi
        /\ ((w = 1)%nat -> nth i std NaN = NaN)
        /\ ((2 <= w)%nat -> exists s, nth i std NaN = Fin s /\ 0 <= s /\ s * s * INR (w - 1) = rsum (map (fun x => (x - m) * (x - m)) v)
              /\ (s = 0 <-> forall x y, In x v -> In y v -> x = y)))
      \/ (* too few rows, or something in the window that is not a number *)
      ((forall v, ~ window_is ts w i v) /\ nth i mean NaN = NaN /\ nth i std NaN = NaN /\ nth i mx NaN = NaN /\ nth i mn NaN = NaN).
Proof.
  intros ts w Hw. unfold rolling_mean, rolling_std, rolling_max, rolling_min. rewrite !rolling_ok by lia. rewrite Nat2Z.id.
  exists (roll w agg_mean ts), (roll w agg_std ts), (roll w agg_max ts), (roll w agg_min ts).
  split; [reflexivity|]. split; [reflexivity|]. split; [reflexivity|]. split; [reflexivity|]. intros i Hi. rewrite !nth_roll by auto.
  destruct (window_dec ts w i Hi) as [(v & Hv)|Hn].
  - left. pose proof Hv as (_ & L & _). destruct v as [|x v]; [cbn in L; lia|].
    assert (P : 0 < INR (length (x :: v))) by (apply lt_0_INR; cbn; lia).
    destruct (fold_min_spec v x) as [M1 M2]. destruct (fold_max_spec v x) as [X1 X2].
    assert (B : forall y, In y (x :: v) -> fold_left Rmin v x <= y <= fold_left Rmax v x) by (intros y Hy; split; [apply M2|apply X2]; auto).
    exists (x :: v), (rmean (x :: v)), (fold_left Rmin v x), (fold_left Rmax v x). rewrite !(roll_at_window _ _ _ _ _ Hi Hv).
    split; [auto|]. split; [apply agg_mean_fin; discriminate|]. split; [reflexivity|]. split; [reflexivity|].
    split; [unfold rmean; rewrite <- L; field; lra|]. split; [auto|]. split; [auto|]. split; [auto|]. split; [apply rmean_bounds; [discriminate|auto]|]. split.
    + intros E. unfold agg_std. rewrite agg_var_short by lia. reflexivity.
    + intros H2. unfold agg_std. rewrite agg_var_fin by lia. pose proof (rvar_nonneg 1 (x :: v) ltac:(lia)) as V0. rewrite nsqrt_fin by auto.
      exists (sqrt (rvar 1 (x :: v))). split; [reflexivity|]. split; [apply sqrt_pos|]. rewrite sqrt_sqrt by auto. split.
      * unfold rvar. rewrite L. assert (0 < INR (w - 1)) by (apply lt_0_INR; lia). unfold Rdiv. rewrite Rmult_assoc, Rinv_l by lra. ring.
      * rewrite <- rvar_zero_iff by lia. split; intros H; [apply sqrt_eq_0; auto|rewrite H; apply sqrt_0].
  - right. rewrite !roll_at_none by auto. auto.
Qed.
Theorem C55_bad_windows : forall ts (w : Z), (w < 0)%Z ->
  (rolling_mean ts w = Raise ValueError /\ rolling_std ts w = Raise ValueError /\ rolling_max ts w = Raise ValueError /\ rolling_min ts w = Raise ValueError)
  /\ rolling_mean ts 0 = Ok (repeat NaN (length ts)) /\ rolling_std ts 0 = Ok (repeat NaN (length ts))
  /\ rolling_max ts 0 = Ok (repeat NaN (length ts)) /\ rolling_min ts 0 = Ok (repeat NaN (length ts)).
Proof.
  intros ts w H. unfold rolling_mean, rolling_std, rolling_max, rolling_min, rolling. rewrite (proj2 (Z.ltb_lt _ _) H). split; [auto|]. cbn [Z.ltb Z.compare Z.to_nat].
  assert (G : forall agg, agg [] = NaN -> roll 0 agg ts = repeat NaN (length ts)).
  { intros agg E. apply list_ext; [rewrite len_roll, repeat_length; auto|]. rewrite len_roll. intros i Hi. rewrite nth_roll by auto.
    rewrite (roll_at_window 0 agg ts i [] Hi) by (split; [lia|split; [reflexivity|intros; lia]]). rewrite E. symmetry. apply nth_repeat. }
  assert (ES : agg_std [] = NaN) by (unfold agg_std; rewrite agg_var_short by (cbn; lia); reflexivity).
  pose proof agg_mean_nil as EM. split; [|split; [|split]]; f_equal; apply G; auto.
Qed.

(** ** C56 *)
Lemma alpha_span : forall span, 1 <= span -> 0 < 2 / (span + 1) <= 1.
Proof.
  intros span H. assert (P : 0 < / (span + 1)) by (apply Rinv_0_lt_compat; lra). split; [unfold Rdiv; lra|].
  apply (Rmult_le_reg_r (span + 1)); [lra|]. unfold Rdiv. rewrite Rmult_assoc, Rinv_l by lra. lra.
Qed.
Lemma alpha_span' : forall span, 1 < span -> 2 / (span + 1) < 1.
Proof. intros span H. apply (Rmult_lt_reg_r (span + 1)); [lra|]. unfold Rdiv. rewrite Rmult_assoc, Rinv_l by lra. lra. Qed.
Lemma ewm_span_ok : forall span m l, 1 <= span -> ewm_span span m l = Ok (ewm_run (2 / (span + 1)) m init_e l).
Proof. intros span m l H. unfold ewm_span. unfold rltb. destruct (Rlt_dec span 1); [lra|reflexivity]. Qed.
Lemma wsum_pos : forall a l i, 0 <= a < 1 -> (exists j x, (j <= i)%nat /\ nth j l NaN = Fin x) -> 0 < wsum a (fun _ => 1) l i.
Proof.
  intros a l i Ha. induction i as [|i IH]; intros (j & x & J1 & J2).
  - replace j with 0%nat in J2 by lia. rewrite wsum_0, J2. cbn. lra.
  - rewrite wsum_S. pose proof (wsum_nonneg a (fun _ => 1) l i ltac:(lra) ltac:(intros; lra)) as W0. destruct (Nat.eq_dec j (S i)) as [->|].
    + rewrite J2. cbn [on_present]. nra.
    + assert (0 < wsum a (fun _ => 1) l i) by (apply IH; exists j, x; split; [lia|auto]). destruct (nth (S i) l NaN); cbn [on_present]; nra.
Qed.
Theorem C56_weighted_mean : forall ts span, 1 <= span -> exists out, ewm_mean ts span = Ok out /\ length out = length ts /\
  let a := 2 / (span + 1) in forall i, (i < length ts)%nat ->
    (* an observed row *)
    (forall x, nth i ts NaN = Fin x -> 1 <= wsum a (fun _ => 1) ts i /\ nth i out NaN = Fin (wsum a (fun x => x) ts i / wsum a (fun _ => 1) ts i))
    (* a gap repeats the row before *)
    /\ ((forall x, nth i ts NaN <> Fin x) -> nth i out NaN = match i with O => NaN | S j => nth j out NaN end)
    (* which for span > 1 is the weighted mean, too *)
    /\ (1 < span -> (exists j x, (j <= i)%nat /\ nth j ts NaN = Fin x) ->
          0 < wsum a (fun _ => 1) ts i /\ nth i out NaN = Fin (wsum a (fun x => x) ts i / wsum a (fun _ => 1) ts i)).
Proof.
  intros ts span Hs. pose proof (alpha_span span Hs) as Ha. exists (ewm_run (2 / (span + 1)) 0 init_e ts). split; [apply ewm_span_ok; auto|]. split; [apply pref_ewm|].
  cbv zeta. intros i Hi. split; [|split].
  - intros x E. apply (ewm_present _ ts i x); auto. lra.
  - intros H. apply ewm_gap; auto.
  - intros H1 H2. pose proof (alpha_span' span H1). pose proof (wsum_pos (2 / (span + 1)) ts i ltac:(lra) H2) as W. split; [auto|].
    destruct (ewm_some (2 / (span + 1)) ts i ltac:(lra) Hi H2) as (m & E & Em & _). rewrite E. f_equal. rewrite <- Em. field. lra.
Qed.
Theorem C56_span_below_one : forall ts span, span < 1 -> ewm_mean ts span = Raise ValueError.
Proof. intros ts span H. unfold ewm_mean, ewm_span, rltb. destruct (Rlt_dec span 1); [reflexivity|lra]. Qed.
(** between the smallest and the largest value seen so far; a constant series is its own average *)
Theorem C56_bounds : forall ts span out i lo hi, ewm_mean ts span = Ok out -> (i < length ts)%nat ->
  (forall j x, (j <= i)%nat -> nth j ts NaN = Fin x -> lo <= x <= hi) ->
  (exists j x, (j <= i)%nat /\ nth j ts NaN = Fin x /\ exists m, nth i out NaN = Fin m /\ lo <= m <= hi)
  \/ ((forall j x, (j <= i)%nat -> nth j ts NaN <> Fin x) /\ nth i out NaN = NaN).
Proof.
  intros ts span out i lo hi H Hi B. unfold ewm_mean, ewm_span, rltb in H. destruct (Rlt_dec span 1) as [|Hs]; [discriminate|]. injection H as <-.
  pose proof (alpha_span span ltac:(lra)) as Ha. destruct (seen_dec ts i) as [(j & x & J1 & J2)|N].
  - left. exists j, x. split; [auto|]. split; [auto|]. destruct (ewm_some (2 / (span + 1)) ts i ltac:(lra) Hi) as (m & E & _ & Bm); [exists j, x; auto|]. exists m. split; [exact E|]. apply Bm. auto.
  - right. split; [auto|]. apply ewm_none; auto. lra.
Qed.
Theorem C56_constant : forall c n span out, ewm_mean (repeat (Fin c) n) span = Ok out -> out = repeat (Fin c) n.
Proof.
  intros c n span out H. assert (L : length out = n) by (apply (proj1 (proj2 (proj2 (proj2 (proj2 (C53_indicators 0 span 1 1 1 0 ltac:(lia)))))) ) in H as [H _]; rewrite repeat_length in H; auto).
  apply list_ext; [rewrite repeat_length; auto|]. intros i Hi.
  destruct (C56_bounds (repeat (Fin c) n) span out i c c H) as [(j & x & J1 & J2 & m & E & Bm)|[N _]].
  - rewrite repeat_length. lia.
  - intros j x Hj E. rewrite (nth_indep _ NaN (Fin c)), nth_repeat in E by (rewrite repeat_length; lia). injection E as <-. lra.
  - rewrite E. rewrite (nth_indep _ NaN (Fin c)), nth_repeat by (rewrite repeat_length; lia). f_equal. lra.
  - exfalso. apply (N i c); [lia|]. rewrite (nth_indep _ NaN (Fin c)), nth_repeat by (rewrite repeat_length; lia). reflexivity.
Qed.
(** commutes with affine maps x -> b x + c *)
Theorem C56_affine : forall ts span b c, 
  ewm_mean (map (fun x => nadd (nmul (Fin b) x) (Fin c)) ts) span = (out <- ewm_mean ts span ;; Ok (map (fun x => nadd (nmul (Fin b) x) (Fin c)) out)).
Proof.
  intros ts span b c. unfold ewm_mean, ewm_span, rltb. destruct (Rlt_dec span 1) as [|Hs]; [reflexivity|]. cbn [bind]. f_equal.
  pose proof (alpha_span span ltac:(lra)). apply (ewm_affine (2 / (span + 1)) 0 b c ts). lra.
Qed.

(** ** C82: the exponentially weighted standard deviation *)
Lemma wsum2_eq : forall a l i, wsum2 a l i = wsum (sq_alpha a) (fun _ => 1) l i.
Proof. intros. unfold wsum2, wsum. apply S_ext. intros j Hj. unfold sq_alpha. replace (1 - (1 - (1 - a) * (1 - a))) with ((1 - a) * (1 - a)) by ring. rewrite Rpow_mult_distr. ring. Qed.
Lemma wsum2_S : forall a l i, wsum2 a l (S i) = (1 - a) * (1 - a) * wsum2 a l i + on_present (fun _ => 1) (nth (S i) l NaN).
Proof. intros. rewrite !wsum2_eq, wsum_S. unfold sq_alpha. ring. Qed.
Lemma wdelta : forall a l i, 0 <= a < 1 ->
  (two_seen l i -> 0 < wsum a (fun _ => 1) l i * wsum a (fun _ => 1) l i - wsum2 a l i) /\ (~ two_seen l i -> wsum a (fun _ => 1) l i * wsum a (fun _ => 1) l i - wsum2 a l i = 0).
Proof.
  intros a l i Ha. induction i as [|i IH].
  - split; [intros (j & k & x & y & H1 & H2 & _); lia|]. intros _. rewrite wsum2_eq, !wsum_0. destruct (nth 0 l NaN); cbn [on_present]; ring.
  - rewrite wsum2_S, wsum_S. set (W := wsum a (fun _ => 1) l i) in *. set (W2 := wsum2 a l i) in *. destruct IH as [I1 I2].
    assert (W0 : 0 <= W) by (apply wsum_nonneg; [lra|intros; lra]).
    assert (E : forall p, p = 0 \/ p = 1 -> ((1 - a) * W + p) * ((1 - a) * W + p) - ((1 - a) * (1 - a) * W2 + p) = (1 - a) * (1 - a) * (W * W - W2) + 2 * (1 - a) * W * p).
    { intros p [->| ->]; ring. }
    assert (Hsq : 0 < (1 - a) * (1 - a)) by nra.
    destruct (nth (S i) l NaN) as [y| | |] eqn:EN; cbn [on_present]; rewrite E by auto.
    + assert (WP : (exists j x, (j <= i)%nat /\ nth j l NaN = Fin x) -> 0 < W) by (intros S; apply wsum_pos; [lra|auto]).
      assert (D0 : 0 <= W * W - W2). { destruct (Rle_or_lt 0 (W * W - W2)) as [|N]; [auto|]. exfalso. assert (NT : ~ two_seen l i) by (intros T; apply I1 in T; lra). apply I2 in NT. lra. }
      split.
      * intros (j & k & x & z & H1 & H2 & H3 & H4). assert (0 < W) by (apply WP; exists j, x; split; [lia|auto]). assert (0 < (1 - a) * W) by (apply Rmult_lt_0_compat; lra). nra.
      * intros NT. assert (N : forall j x, (j <= i)%nat -> nth j l NaN <> Fin x). { intros j x Hj Ej. apply NT. exists j, (S i), x, y. repeat split; auto; lia. }
        assert (W = 0) by (apply wsum_none; auto). assert (~ two_seen l i). { intros (j & k & x & z & H1 & H2 & H3 & H4). apply (N k z); auto. } rewrite (I2 H0), H. ring.
    + assert (T : two_seen l (S i) <-> two_seen l i).
      { split; intros (j & k & x & z & H1 & H2 & H3 & H4); exists j, k, x, z; (split; [auto|split; [|auto]]); [|lia]. destruct (Nat.eq_dec k (S i)) as [->|]; [congruence|lia]. }
      rewrite T. split; [intros H; specialize (I1 H); nra|intros H; specialize (I2 H); rewrite I2; ring].
    + assert (T : two_seen l (S i) <-> two_seen l i).
      { split; intros (j & k & x & z & H1 & H2 & H3 & H4); exists j, k, x, z; (split; [auto|split; [|auto]]); [|lia]. destruct (Nat.eq_dec k (S i)) as [->|]; [congruence|lia]. }
      rewrite T. split; [intros H; specialize (I1 H); nra|intros H; specialize (I2 H); rewrite I2; ring].
    + assert (T : two_seen l (S i) <-> two_seen l i).
      { split; intros (j & k & x & z & H1 & H2 & H3 & H4); exists j, k, x, z; (split; [auto|split; [|auto]]); [|lia]. destruct (Nat.eq_dec k (S i)) as [->|]; [congruence|lia]. }
      rewrite T. split; [intros H; specialize (I1 H); nra|intros H; specialize (I2 H); rewrite I2; ring].
Qed.
Lemma wsum_sq_dev : forall a l i m, m * wsum a (fun _ => 1) l i = wsum a (fun x => x) l i ->
  wsum a (fun x => (x - m) * (x - m)) l i = wsum a (fun x => x * x) l i - m * m * wsum a (fun _ => 1) l i.
Proof.
  intros a l i m H. assert (G : wsum a (fun x => (x - m) * (x - m)) l i = wsum a (fun x => x * x) l i - 2 * m * wsum a (fun x => x) l i + m * m * wsum a (fun _ => 1) l i).
  { clear H. induction i as [|i IH]; [rewrite !wsum_0|rewrite !wsum_S, IH]; match goal with |- context [nth ?k l NaN] => destruct (nth k l NaN); cbn [on_present]; ring end. }
  rewrite G, <- H. ring.
Qed.
Lemma wsum_zero : forall a f l i, 0 <= a < 1 -> (forall x, 0 <= f x) -> wsum a f l i = 0 -> forall j x, (j <= i)%nat -> nth j l NaN = Fin x -> f x = 0.
Proof.
  intros a f l i Ha Hf. induction i as [|i IH]; intros H j x Hj E.
  - replace j with 0%nat in E by lia. rewrite wsum_0, E in H. exact H.
  - rewrite wsum_S in H. pose proof (wsum_nonneg a f l i ltac:(lra) Hf) as W0. assert (P : 0 <= on_present f (nth (S i) l NaN)) by (destruct (nth (S i) l NaN); cbn; auto; lra).
    assert (Z : wsum a f l i = 0) by nra. destruct (Nat.eq_dec j (S i)) as [->|]; [rewrite Z, E in H; cbn [on_present] in H; lra|]. apply (IH Z j x); [lia|auto].
Qed.
Theorem C82_weighted_std : forall ts span, 1 < span -> exists mean std, ewm_mean ts span = Ok mean /\ ewm_std ts span = Ok std /\ length std = length ts /\
  let a := 2 / (span + 1) in forall i, (i < length ts)%nat ->
    let W := wsum a (fun _ => 1) ts i in let D := W * W - wsum2 a ts i in
    (two_seen ts i -> exists m s, nth i mean NaN = Fin m /\ nth i std NaN = Fin s /\ 0 <= s /\ 0 < W /\ 0 < D
        /\ s * s = W / D * wsum a (fun x => (x - m) * (x - m)) ts i
        /\ (s = 0 <-> forall j x, (j <= i)%nat -> nth j ts NaN = Fin x -> x = m))
    /\ (~ two_seen ts i -> nth i std NaN = NaN).
Proof.
  intros ts span Hs. pose proof (alpha_span span ltac:(lra)) as Ha. pose proof (alpha_span' span Hs) as Ha'. set (al := 2 / (span + 1)) in *.
  exists (ewm_run al 0 init_e ts), (var_run al init_v ts). split; [apply ewm_span_ok; lra|]. split.
  { unfold ewm_std, ewm_std_span, rltb. destruct (Rlt_dec span 1); [lra|reflexivity]. }
  split; [apply pref_var|]. cbv zeta. intros i Hi. rewrite var_run_nth by auto. change (fold_left (var_step al) (firstn (S i) ts) init_v) with (vst al ts i).
  pose proof (vst_inv al ts i ltac:(lra) Hi) as I. destruct (wdelta al ts i ltac:(lra)) as [D1 D2]. split.
  - intros T. specialize (D1 T). assert (SN : exists j x, (j <= i)%nat /\ nth j ts NaN = Fin x) by (destruct T as (j & k & x & y & H1 & H2 & H3 & H4); exists k, y; auto).
    pose proof (wsum_pos al ts i ltac:(lra) SN) as WP. destruct (ewm_some al ts i ltac:(lra) Hi SN) as (m & E & Em & _).
    unfold vinv in I. destruct (v_mean (vst al ts i)) as [m'|]; [|destruct I as (_ & _ & _ & _ & _ & _ & N); destruct SN as (j & x & J1 & J2); exfalso; apply (N j x); auto].
    destruct I as (I1 & I2 & I3 & I4 & I5 & I6). assert (Emm : m' = m) by (apply (Rmult_eq_reg_r (wsum al (fun _ => 1) ts i)); [congruence|lra]). subst m'.
    rewrite <- wsum_sq_dev in I6 by auto.
    set (W := wsum al (fun _ => 1) ts i) in *. set (Q := wsum al (fun x => (x - m) * (x - m)) ts i) in *.
    assert (Q0 : 0 <= Q) by (apply wsum_nonneg; [lra|intros; apply Rle_0_sqr]).
    assert (EC : v_cov (vst al ts i) = Q / W) by (rewrite <- I6; field; lra).
    unfold var_out. rewrite (proj2 (Nat.leb_le _ _)) by lia. rewrite I2, I4, <- wsum2_eq. unfold rltb at 1. destruct (Rlt_dec 0 (W * W - wsum2 al ts i)); [|lra].
    rewrite EC. set (D := W * W - wsum2 al ts i) in *. assert (V : W * W / D * (Q / W) = W / D * Q) by (field; lra). rewrite V.
    assert (P1 : 0 < W / D) by (apply Rdiv_lt_0_compat; auto). assert (V0 : 0 <= W / D * Q) by nra.
    unfold zsqrt, rltb. destruct (Rlt_dec (W / D * Q) 0); [lra|]. exists m, (sqrt (W / D * Q)).
    split; [auto|]. split; [auto|]. split; [apply sqrt_pos|]. split; [auto|]. split; [auto|]. split; [apply sqrt_sqrt; auto|]. split.
    + intros H0. apply sqrt_eq_0 in H0; [|auto]. assert (Z : Q = 0) by nra. intros j x Hj Ej.
      pose proof (wsum_zero al (fun x => (x - m) * (x - m)) ts i ltac:(lra) ltac:(intros; apply Rle_0_sqr) Z j x Hj Ej) as X. cbv beta in X. apply Rmult_integral in X. lra.
    + intros H0. assert (Z : Q = 0).
      { unfold Q, wsum. rewrite (S_ext _ _ (fun _ => 0)); [assert (Z0 : forall k, sumn k (fun _ => 0) = 0) by (induction k as [|k IHk]; [reflexivity|rewrite S_succ, IHk; ring]); apply Z0|].
        intros j Hj. destruct (nth j ts NaN) as [x| | |] eqn:Ej; cbn [on_present]; try ring. rewrite (H0 j x) by (auto; lia). ring. }
      rewrite Z, Rmult_0_r. apply sqrt_0.
  - intros NT. specialize (D2 NT). unfold var_out. unfold vinv in I. destruct (v_mean (vst al ts i)) as [m'|].
    + destruct I as (I1 & I2 & I3 & I4 & _). rewrite (proj2 (Nat.leb_le _ _)) by lia. rewrite I2, I4, <- wsum2_eq. unfold rltb at 1. rewrite D2. destruct (Rlt_dec 0 0); [lra|reflexivity].
    + destruct I as (_ & _ & _ & _ & -> & _). reflexivity.
Qed.

(** ** C59 *)
Definition zero_or_nan (x : num) : Prop := x = Fin 0 \/ x = NaN.
Lemma nsub_self : forall x, zero_or_nan (nsub x x).
Proof. intros [x| | |]; [left; cbn; f_equal; ring|right; reflexivity|right; reflexivity|right; reflexivity]. Qed.
Lemma ewm_vals : forall a l i, 0 <= a <= 1 -> nth i (ewm_run a 0 init_e l) NaN = NaN \/ exists m, nth i (ewm_run a 0 init_e l) NaN = Fin m.
Proof.
  intros a l i Ha. destruct (Nat.lt_ge_cases i (length l)) as [Hi|Hi].
  - destruct (seen_dec l i) as [S|N]; [right; destruct (ewm_some a l i Ha Hi S) as (m & E & _); eauto|left; apply ewm_none; auto].
  - left. apply nth_overflow. rewrite (proj1 (pref_ewm _ _ _ _)). auto.
Qed.
Lemma macd_inv : forall ts fast slow out, macd ts fast slow = Ok out -> 1 <= fast /\ 1 <= slow /\ out = lift2 nsub (ewm_run (2 / (fast + 1)) 0 init_e ts) (ewm_run (2 / (slow + 1)) 0 init_e ts).
Proof.
  intros ts fast slow out H. unfold macd, ewm_span, rltb in H. destruct (Rlt_dec fast 1); [discriminate|]. destruct (Rlt_dec slow 1); [discriminate|]. cbn [bind] in H. injection H as <-. repeat split; lra.
Qed.
Lemma macd_ok : forall ts fast slow, 1 <= fast -> 1 <= slow -> macd ts fast slow = Ok (lift2 nsub (ewm_run (2 / (fast + 1)) 0 init_e ts) (ewm_run (2 / (slow + 1)) 0 init_e ts)).
Proof. intros. unfold macd. rewrite !ewm_span_ok by auto. reflexivity. Qed.
Theorem C59_difference : forall ts fast slow, 1 <= fast -> 1 <= slow -> exists line ef es, macd ts fast slow = Ok line /\ ewm_mean ts fast = Ok ef /\ ewm_mean ts slow = Ok es
  /\ forall i, nth i line NaN = nsub (nth i ef NaN) (nth i es NaN).
Proof.
  intros ts fast slow H1 H2. eexists _, _, _. split; [apply macd_ok; auto|]. split; [apply ewm_span_ok; auto|]. split; [apply ewm_span_ok; auto|]. intros i. apply nth_lift2. reflexivity.
Qed.
Theorem C59_constant : forall c n fast slow line, macd (repeat (Fin c) n) fast slow = Ok line -> line = repeat (Fin 0) n.
Proof.
  intros c n fast slow line H. destruct (macd_inv _ _ _ _ H) as (H1 & H2 & ->).
  pose proof (C56_constant c n fast _ (ewm_span_ok fast 0 (repeat (Fin c) n) H1)) as E1. pose proof (C56_constant c n slow _ (ewm_span_ok slow 0 (repeat (Fin c) n) H2)) as E2. rewrite E1, E2.
  apply list_ext; [rewrite len_lift2, !repeat_length; lia|]. rewrite len_lift2, repeat_length. intros i Hi. rewrite nth_lift2 by reflexivity.
  rewrite !(nth_indep (repeat (Fin c) n) NaN (Fin c)), nth_repeat by (rewrite repeat_length; lia). rewrite (nth_indep _ NaN (Fin 0)), nth_repeat by (rewrite repeat_length; lia). cbn. f_equal. ring.
Qed.
Theorem C59_equal_spans : forall ts span line i, macd ts span span = Ok line -> zero_or_nan (nth i line NaN).
Proof. intros ts span line i H. destruct (macd_inv _ _ _ _ H) as (H1 & _ & ->). rewrite nth_lift2 by reflexivity. apply nsub_self. Qed.
Theorem C59_antisymmetric : forall ts fast slow, macd ts slow fast = (line <- macd ts fast slow ;; Ok (map nneg line)).
Proof.
  intros ts fast slow. unfold macd, ewm_span, rltb. destruct (Rlt_dec fast 1), (Rlt_dec slow 1); cbn [bind]; try reflexivity. f_equal.
  pose proof (alpha_span fast ltac:(lra)). pose proof (alpha_span slow ltac:(lra)).
  apply list_ext; [rewrite map_length, !len_lift2; lia|]. intros i Hi. rewrite nth_map_nan by reflexivity. rewrite !nth_lift2 by reflexivity.
  destruct (ewm_vals (2 / (fast + 1)) ts i ltac:(lra)) as [E1|(m1 & E1)]; destruct (ewm_vals (2 / (slow + 1)) ts i ltac:(lra)) as [E2|(m2 & E2)]; unfold init_e in *; rewrite E1, E2; cbn; try reflexivity. f_equal. ring.
Qed.
Theorem C59_affine : forall ts fast slow b c, 
  macd (map (fun x => nadd (nmul (Fin b) x) (Fin c)) ts) fast slow = (line <- macd ts fast slow ;; Ok (map (nmul (Fin b)) line)).
Proof.
  intros ts fast slow b c. unfold macd, ewm_span, rltb. destruct (Rlt_dec fast 1), (Rlt_dec slow 1); cbn [bind]; try reflexivity. f_equal.
  pose proof (alpha_span fast ltac:(lra)). pose proof (alpha_span slow ltac:(lra)). fold init_e. change (fun x => nadd (nmul (Fin b) x) (Fin c)) with (naff b c). rewrite !ewm_affine by lra.
  apply list_ext; [rewrite !map_length, !len_lift2, !map_length; lia|]. intros i Hi. rewrite nth_map_nan by reflexivity. rewrite !nth_lift2 by reflexivity. rewrite !nth_map_nan by reflexivity.
  destruct (ewm_vals (2 / (fast + 1)) ts i ltac:(lra)) as [E1|(m1 & E1)]; destruct (ewm_vals (2 / (slow + 1)) ts i ltac:(lra)) as [E2|(m2 & E2)]; rewrite E1, E2; cbn; try reflexivity. f_equal. ring.
Qed.
(** macd_signal is the histogram (line minus its moving average); the signal line itself would be that moving average *)
Theorem C59_signal_is_histogram : forall ts fast slow signal, 1 <= fast -> 1 <= slow -> 1 <= signal ->
  exists out line ema, macd_signal ts fast slow signal = Ok out /\ macd ts fast slow = Ok line /\ ewm_mean line signal = Ok ema
    /\ forall i, nth i out NaN = nsub (nth i line NaN) (nth i ema NaN).
Proof.
  intros ts fast slow signal H1 H2 H3. pose proof (macd_ok ts fast slow H1 H2) as E. eexists _, _, _. unfold macd_signal. rewrite E. cbn [bind]. rewrite (ewm_span_ok signal) by auto. cbn [bind].
  split; [reflexivity|]. split; [reflexivity|]. split; [apply ewm_span_ok; auto|]. intros i. apply nth_lift2. reflexivity.
Qed.
(** so the value is 0 wherever the line has been constant so far, although the signal line is that constant *)
Theorem C59_signal_line_refuted : exists ts fast slow signal out line ema i, macd_signal ts fast slow signal = Ok out /\ macd ts fast slow = Ok line
  /\ ewm_mean line signal = Ok ema /\ nth i out NaN <> nth i ema NaN.
Proof.
  pose proof (C59_signal_is_histogram [Fin 0; Fin 1] 1 3 1 ltac:(lra) ltac:(lra) ltac:(lra)) as (out & line & ema & E1 & E2 & E3 & H).
  exists [Fin 0; Fin 1], 1, 3, 1, out, line, ema, 1%nat. split; [auto|]. split; [auto|]. split; [auto|].
  assert (L : nth 1 line NaN = Fin (1 / 3)).
  { destruct (macd_inv _ _ _ _ E2) as (_ & _ & ->). rewrite nth_lift2 by reflexivity.
    destruct (ewm_present (2 / (1 + 1)) [Fin 0; Fin 1] 1 1 ltac:(lra) ltac:(cbn; lia) eq_refl) as [_ ->].
    destruct (ewm_present (2 / (3 + 1)) [Fin 0; Fin 1] 1 1 ltac:(lra) ltac:(cbn; lia) eq_refl) as [_ ->].
    rewrite !wsum_S, !wsum_0. cbn. f_equal. field. }
  assert (LL : length line = 2%nat) by (destruct (macd_inv _ _ _ _ E2) as (_ & _ & ->); rewrite len_lift2, !(proj1 (pref_ewm _ _ _ _)); reflexivity).
  assert (M : nth 1 ema NaN = Fin (1 / 3)).
  { unfold ewm_mean in E3. rewrite ewm_span_ok in E3 by lra. injection E3 as <-. destruct (ewm_present (2 / (1 + 1)) line 1 (1 / 3) ltac:(lra) ltac:(lia) L) as [_ ->].
    rewrite !wsum_S, !wsum_0, L. replace (1 - 2 / (1 + 1)) with 0 by field. cbn [on_present]. f_equal. field. }
  rewrite H, L, M. cbn. intros X. injection X as X. lra.
Qed.

(** ** C60 *)
(** the true range of a bar with numbers, and of the first bar *)
Theorem C60_true_range : forall high low close i h l c, nth (S i) high NaN = Fin h -> nth (S i) low NaN = Fin l -> nth i close NaN = Fin c -> (S i < length close)%nat ->
  nth (S i) (true_range high low close) NaN = Fin (Rmax (Rmax (h - l) (Rabs (h - c))) (Rabs (l - c))).
Proof.
  intros high low close i h l c Eh El Ec HL. assert (Lh : (S i < length high)%nat) by (destruct (Nat.lt_ge_cases (S i) (length high)); auto; rewrite nth_overflow in Eh by lia; discriminate).
  rewrite true_range_at. rewrite nth_seq_map' by lia. rewrite !nth_map_nan by reflexivity. rewrite !nth_lift2 by reflexivity. rewrite nth_shift1, (proj2 (Nat.ltb_lt _ _) HL), Eh, El, Ec.
  unfold row_max. cbn [nsub nneg nadd nabs]. unfold Rminus. set (x := h + - l). set (y := Rabs (h + - c)). set (z := Rabs (l + - c)). cbn [nltb]. unfold rltb.
  destruct (Rlt_dec x y) as [A|A]; [rewrite (Rmax_right x y) by lra|rewrite (Rmax_left x y) by lra].
  - cbn [nltb]; unfold rltb; destruct (Rlt_dec y z); [rewrite Rmax_right by lra|rewrite Rmax_left by lra]; reflexivity.
  - cbn [nltb]; unfold rltb; destruct (Rlt_dec x z); [rewrite Rmax_right by lra|rewrite Rmax_left by lra]; reflexivity.
Qed.
Theorem C60_first_bar : forall high low close h l, nth 0 high NaN = Fin h -> nth 0 low NaN = Fin l -> nth 0 (true_range high low close) NaN = Fin (h - l).
Proof.
  intros high low close h l Eh El. assert (Lh : (0 < length high)%nat) by (destruct high; [discriminate|cbn; lia]).
  rewrite true_range_at. rewrite nth_seq_map' by lia. rewrite !nth_map_nan by reflexivity. rewrite !nth_lift2 by reflexivity. rewrite nth_shift1, Eh, El. reflexivity.
Qed.
(** the average true range is the weighted mean of the true ranges with a = 1/window, so it stays between the smallest and the largest so far *)
Theorem C60_average : forall high low close (w : Z) i, (1 <= w)%Z -> (i < Nat.max (length high) (Nat.max (length low) (length close)))%nat ->
  exists out, average_true_range high low close w = Ok out /\
  let tr := true_range high low close in let a := 1 / IZR w in
  (forall x, nth i tr NaN = Fin x -> nth i out NaN = Fin (wsum a (fun x => x) tr i / wsum a (fun _ => 1) tr i))
  /\ (forall lo hi, (forall j x, (j <= i)%nat -> nth j tr NaN = Fin x -> lo <= x <= hi) -> within lo hi (nth i out NaN)).
Proof.
  intros high low close w i Hw Hi. assert (P : 1 <= IZR w) by (apply (IZR_le 1); auto).
  assert (Ha : 0 < 1 / IZR w <= 1). { split; [apply Rdiv_lt_0_compat; lra|]. apply (Rmult_le_reg_r (IZR w)); [lra|]. unfold Rdiv. rewrite Rmult_assoc, Rinv_l by lra. lra. }
  exists (ewm_run (1 / IZR w) 0 init_e (true_range high low close)). split.
  - unfold average_true_range. destruct (Z.eqb_spec w 0); [lia|]. unfold ewm_alpha, rltb, rleb. destruct (Rlt_dec 0 (1 / IZR w)); [|lra]. destruct (Rle_dec (1 / IZR w) 1); [reflexivity|lra].
  - cbv zeta. split.
    + intros x E. apply (ewm_present _ _ i x); auto; [lra|]. rewrite len_true_range. auto.
    + intros lo hi H. apply ewm_within; auto. lra.
Qed.
Lemma row_max_nonneg : forall x y z, nonneg x -> (nonneg y \/ y = PInf) -> (nonneg z \/ z = PInf) -> nonneg (row_max x y z) \/ row_max x y z = PInf.
Proof.
  intros x y z [->|(x0 & -> & X)] [[->|(y0 & -> & Y)]| ->] [[->|(z0 & -> & Z)]| ->]; unfold row_max;
    repeat (first [progress cbn [nltb] | progress unfold rltb | match goal with |- context [Rlt_dec ?a ?b] => destruct (Rlt_dec a b) end]);
    try (right; reflexivity); left; try (left; reflexivity); right; eexists; split; try reflexivity; lra.
Qed.
Lemma nabs_sign : forall x, nonneg (nabs x) \/ nabs x = PInf.
Proof. intros [x| | |]; cbn; [left; right; exists (Rabs x); split; [auto|apply Rabs_pos]|left; left; auto|right; auto|right; auto]. Qed.
(** every bar with low <= high: the average true range is a number >= 0, or NaN *)
Theorem C60_nonnegative : forall high low close (w : Z) out, average_true_range high low close w = Ok out ->
  (forall i, nth i high NaN = NaN \/ nth i low NaN = NaN \/ exists h l, nth i high NaN = Fin h /\ nth i low NaN = Fin l /\ l <= h) ->
  forall i, nonneg (nth i out NaN).
Proof.
  intros high low close w out H HV i. unfold average_true_range in H. destruct (w =? 0)%Z; [discriminate|]. unfold ewm_alpha, rltb, rleb in H.
  destruct (Rlt_dec 0 (1 / IZR w)); [|discriminate]. destruct (Rle_dec (1 / IZR w) 1); [|discriminate]. cbn [andb] in H. injection H as <-. fold init_e.
  assert (T : forall j x, nth j (true_range high low close) NaN = Fin x -> 0 <= x).
  { intros j x E. rewrite true_range_at in E. destruct (Nat.lt_ge_cases j (Nat.max (length high) (Nat.max (length low) (length close)))) as [Hj|Hj].
    - rewrite nth_seq_map' in E by auto. rewrite !nth_map_nan in E by reflexivity. rewrite !nth_lift2 in E by reflexivity.
      assert (X1 : nonneg (nsub (nth j high NaN) (nth j low NaN))).
      { destruct (HV j) as [->|[->|(h & l & -> & -> & B)]]; [left; reflexivity|left; destruct (nth j high NaN); reflexivity|]. right. exists (h - l). split; [reflexivity|lra]. }
      destruct (row_max_nonneg _ _ _ X1 (nabs_sign (nsub (nth j high NaN) (nth j (shift 1 close) NaN))) (nabs_sign (nsub (nth j low NaN) (nth j (shift 1 close) NaN)))) as [[N|(rr & N & RR)]|N]; rewrite N in E; try discriminate. injection E as <-. auto.
    - rewrite nth_overflow in E by (rewrite map_length, seq_length; auto). discriminate. }
  destruct (Nat.lt_ge_cases i (length (true_range high low close))) as [Hi|Hi]; [|left; apply nth_overflow; rewrite (proj1 (pref_ewm _ _ _ _)); auto].
  destruct (seen_dec (true_range high low close) i) as [SN|N]; [|left; apply ewm_none; auto; lra].
  destruct (ewm_some (1 / IZR w) (true_range high low close) i ltac:(lra) Hi SN) as (m & E & _ & B). right. exists m. split; [auto|].
  set (tr := true_range high low close) in *.
  assert (exists hi, forall j x, (j <= i)%nat -> nth j tr NaN = Fin x -> 0 <= x <= hi) as (hi & Hhi).
  { assert (G : forall k, exists hi, forall j x, (j <= k)%nat -> nth j tr NaN = Fin x -> x <= hi).
    { induction k as [|k (hi & Hk)].
      - destruct (nth 0 tr NaN) as [v| | |] eqn:E0; [exists v|exists 0|exists 0|exists 0]; intros j x Hj Ej; replace j with 0%nat in Ej by lia; rewrite E0 in Ej; try discriminate. injection Ej as ->. lra.
      - destruct (nth (S k) tr NaN) as [v| | |] eqn:E0; [exists (Rmax hi v)|exists hi|exists hi|exists hi]; intros j x Hj Ej; (destruct (Nat.eq_dec j (S k)) as [->|]; [rewrite E0 in Ej; try discriminate|]); try (apply (Hk j x); [lia|auto]; fail).
        + injection Ej as <-. apply Rmax_r.
        + eapply Rle_trans; [apply (Hk j x); [lia|auto]|apply Rmax_l]. }
    destruct (G i) as (hi & Hh). exists hi. intros j x Hj Ej. split; [apply (T j); auto|apply (Hh j); auto]. }
  apply (B 0 hi) in Hhi. lra.
Qed.
Theorem C60_bad_windows : forall high low close (w : Z), (w < 0)%Z -> average_true_range high low close w = Raise ValueError /\ average_true_range high low close 0 = Raise ZeroDivisionError.
Proof.
  intros high low close w H. split; [|reflexivity]. unfold average_true_range. destruct (Z.eqb_spec w 0); [lia|]. unfold ewm_alpha, rltb. destruct (Rlt_dec 0 (1 / IZR w)) as [X|]; [|reflexivity].
  exfalso. assert (IZR w < 0) by (apply (IZR_lt w 0); auto). assert (1 / IZR w < 0) by (unfold Rdiv; rewrite Rmult_1_l; apply Rinv_lt_0_compat; auto). lra.
Qed.

(** ** non-trivial instances *)
Definition ex_w : list num := [Fin 1; Fin 3; NaN; Fin 5].
Example C55_example : window_is ex_w 2 1 [1; 3] /\ (forall v, ~ window_is ex_w 2 3 v).
Proof.
  split; [split; [lia|split; [reflexivity|intros [|[|j]] Hj; try reflexivity; lia]]|]. intros v (_ & _ & H). specialize (H 0%nat ltac:(lia)). discriminate.
Qed.
Example C56_example : exists out, ewm_mean ex_w 3 = Ok out /\ nth 1 out NaN = Fin (7 / 3) /\ nth 2 out NaN = Fin (7 / 3) /\ nth 3 out NaN = Fin (47 / 11).
Proof.
  destruct (C56_weighted_mean ex_w 3 ltac:(lra)) as (out & E & _ & H). exists out. split; [auto|]. cbv zeta in H.
  destruct (H 1%nat ltac:(cbn; lia)) as (H1 & _). destruct (H1 3 eq_refl) as [_ E1].
  destruct (H 2%nat ltac:(cbn; lia)) as (_ & H2 & _).
  destruct (H 3%nat ltac:(cbn; lia)) as (H3 & _). destruct (H3 5 eq_refl) as [_ E3].
  assert (V1 : nth 1 out NaN = Fin (7 / 3)) by (rewrite E1, !wsum_S, !wsum_0; cbn [ex_w nth on_present]; f_equal; field).
  split; [auto|]. split; [rewrite H2 by (cbn; discriminate); auto|]. rewrite E3, !wsum_S, !wsum_0. cbn [ex_w nth on_present]. f_equal. field.
Qed.
Example C82_example : two_seen ex_w 1 /\ ~ two_seen ex_w 0.
Proof. split; [exists 0%nat, 1%nat, 1, 3; repeat split; auto|]. intros (j & k & x & y & H1 & H2 & _). lia. Qed.
Example C59_example : exists line, macd ex_w 1 3 = Ok line /\ nth 1 line NaN = Fin (2 / 3).
Proof.
  destruct (C59_difference ex_w 1 3 ltac:(lra) ltac:(lra)) as (line & ef & es & E & E1 & E2 & H). exists line. split; [auto|]. rewrite H.
  destruct (C56_weighted_mean ex_w 1 ltac:(lra)) as (o1 & O1 & _ & H1). destruct (C56_weighted_mean ex_w 3 ltac:(lra)) as (o2 & O2 & _ & H2). cbv zeta in *.
  assert (o1 = ef) by congruence. assert (o2 = es) by congruence. subst.
  destruct (H1 1%nat ltac:(cbn; lia)) as (A & _). destruct (A 3 eq_refl) as [_ ->]. destruct (H2 1%nat ltac:(cbn; lia)) as (B & _). destruct (B 3 eq_refl) as [_ ->].
  rewrite !wsum_S, !wsum_0. cbn [ex_w nth on_present nsub nneg nadd]. f_equal. field.
Qed.
Definition ex_h : list num := [Fin 4; Fin 6]. Definition ex_l : list num := [Fin 2; Fin 5]. Definition ex_c : list num := [Fin 3; Fin 5].
Example C60_example : true_range ex_h ex_l ex_c = [Fin 2; Fin 3] /\ exists out, average_true_range ex_h ex_l ex_c 2 = Ok out /\ nth 1 out NaN = Fin (8 / 3).
Proof.
  assert (T0 : nth 0 (true_range ex_h ex_l ex_c) NaN = Fin 2) by (rewrite (C60_first_bar ex_h ex_l ex_c 4 2 eq_refl eq_refl); f_equal; lra).
  assert (T1 : nth 1 (true_range ex_h ex_l ex_c) NaN = Fin 3).
  { rewrite (C60_true_range ex_h ex_l ex_c 0 6 5 3 eq_refl eq_refl eq_refl ltac:(cbn; lia)). f_equal. rewrite !Rabs_right by lra. rewrite (Rmax_right (6 - 5)) by lra. rewrite Rmax_left; lra. }
  split; [apply list_ext; [rewrite len_true_range; reflexivity|rewrite len_true_range; intros [|[|i]] Hi; [exact T0|exact T1|cbn in Hi; lia]]|].
  destruct (C60_average ex_h ex_l ex_c 2 1 ltac:(lia) ltac:(cbn; lia)) as (out & E & H & _). exists out. split; [auto|]. rewrite (H 3 T1). rewrite !wsum_S, !wsum_0, T0, T1. cbn [on_present]. f_equal. field.
Qed.
Print Assumptions C55_rolling. Print Assumptions C55_bad_windows. Print Assumptions C56_weighted_mean. Print Assumptions C56_span_below_one. Print Assumptions C56_bounds.
Print Assumptions C56_constant. Print Assumptions C56_affine. Print Assumptions C82_weighted_std. Print Assumptions C59_difference. Print Assumptions C59_constant. Print Assumptions C59_equal_spans.
Print Assumptions C59_antisymmetric. Print Assumptions C59_affine. Print Assumptions C59_signal_is_histogram. Print Assumptions C59_signal_line_refuted.
Print Assumptions C60_true_range. Print Assumptions C60_first_bar. Print Assumptions C60_average. Print Assumptions C60_nonnegative. Print Assumptions C60_bad_windows.
