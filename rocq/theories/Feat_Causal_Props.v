(** C53, C54: no feature looks ahead; numpy and pandas inputs give the same numbers. *)
From Coq Require Import Reals Lra Psatz ZArith List Arith Bool Lia.
From Verif Require Import Base Num Sums Feat_Ops Feat_Spec Feat_Proofs Feat_Model.
Import ListNotations.
Open Scope R_scope.

Lemma firstn_shift1 : forall k l, firstn k (shift 1 l) = shift 1 (firstn k l).
Proof. intros. symmetry. apply (pref_shift 1); lia. Qed.
Lemma firstn_diff1 : forall k l, firstn k (diff 1 l) = diff 1 (firstn k l).
Proof. intros. symmetry. apply (pref_diff 1); lia. Qed.
Lemma firstn_roll : forall k w agg l, firstn k (roll w agg l) = roll w agg (firstn k l).
Proof. intros. symmetry. apply pref_roll. Qed.
Lemma firstn_ffill : forall k l, firstn k (ffill l) = ffill (firstn k l).
Proof. intros. symmetry. apply pref_ffill. Qed.
Lemma firstn_ewm : forall k a m s l, firstn k (ewm_run a m s l) = ewm_run a m s (firstn k l).
Proof. intros. symmetry. apply pref_ewm. Qed.
Lemma firstn_var : forall k a s l, firstn k (var_run a s l) = var_run a s (firstn k l).
Proof. intros. symmetry. apply pref_var. Qed.
Lemma firstn_lift2' : forall k f x y, firstn k (lift2 f x y) = lift2 f (firstn k x) (firstn k y).
Proof. intros. symmetry. apply firstn_lift2. Qed.
Lemma firstn_map' : forall k (f : num -> num) l, firstn k (map f l) = map f (firstn k l).
Proof. intros. apply firstn_map. Qed.
Lemma len_ffill : forall l, length (ffill l) = length l. Proof. intros. apply pref_ffill. Qed.
Lemma len_ewm : forall a m s l, length (ewm_run a m s l) = length l. Proof. intros. apply pref_ewm. Qed.
Lemma len_var : forall a s l, length (var_run a s l) = length l. Proof. intros. apply pref_var. Qed.
#[export] Hint Rewrite firstn_shift1 firstn_diff1 firstn_roll firstn_ffill firstn_ewm firstn_var firstn_lift2' firstn_map' : push.
#[export] Hint Rewrite map_length len_shift len_diff len_roll len_ffill len_ewm len_var len_lift2 : lens.

Lemma firstn_seq : forall k s n, firstn k (seq s n) = seq s (Nat.min k n).
Proof. induction k as [|k IH]; intros s [|n]; cbn; auto. f_equal. apply IH. Qed.
Lemma firstn_at : forall k n (g g' : nat -> num), (forall i, (i < k)%nat -> (i < n)%nat -> g i = g' i) ->
  firstn k (map g (seq 0 n)) = map g' (seq 0 (Nat.min k n)).
Proof. intros k n g g' H. rewrite firstn_map, firstn_seq. apply map_ext_in. intros i Hi. apply in_seq in Hi. apply H; lia. Qed.
Lemma true_range_at : forall h l c, true_range h l c =
  map (fun i => row_max (nth i (lift2 nsub h l) NaN) (nth i (map nabs (lift2 nsub h (shift 1 c))) NaN) (nth i (map nabs (lift2 nsub l (shift 1 c))) NaN))
    (seq 0 (Nat.max (length h) (Nat.max (length l) (length c)))).
Proof. intros h l c. unfold true_range. cbv zeta. f_equal. f_equal. autorewrite with lens. lia. Qed.
Lemma firstn_true_range : forall k h l c, firstn k (true_range h l c) = true_range (firstn k h) (firstn k l) (firstn k c).
Proof.
  intros k h l c. rewrite !true_range_at.
  replace (Nat.max (length (firstn k h)) (Nat.max (length (firstn k l)) (length (firstn k c)))) with (Nat.min k (Nat.max (length h) (Nat.max (length l) (length c)))) by (rewrite !firstn_length; lia).
  apply firstn_at. intros i Hi _.
  rewrite <- !firstn_shift1, <- !firstn_lift2', <- !firstn_map', !nth_first by exact Hi. reflexivity.
Qed.
Lemma len_true_range : forall h l c, length (true_range h l c) = Nat.max (length h) (Nat.max (length l) (length c)).
Proof. intros. unfold true_range. cbv zeta. rewrite map_length, seq_length. autorewrite with lens. lia. Qed.
#[export] Hint Rewrite firstn_true_range : push.
#[export] Hint Rewrite len_true_range : lens.

Ltac unbind H := repeat (match type of H with
  | bind ?r _ = Ok _ => let a := fresh "a" in let E := fresh "E" in apply bind_ok in H as (a & E & H)
  end).
Ltac open_causal H := match goal with
  | |- causal1 _ => intros ? ? H | |- causal2 _ => intros ? ? ? H | |- causal3 _ => intros ? ? ? ? H | |- causal4 _ => intros ? ? ? ? ? H
  end.
(* after unfolding: conditions that do not depend on the series, then series operations *)
Ltac causal := let Hc := fresh "Hc" in
  open_causal Hc; cbv beta zeta in *; unfold rolling, ewm_span, ewm_alpha, ewm_std_span in *;
  repeat match type of Hc with context [if ?b then _ else _] =>
    match b with context [Z.ltb] => idtac | context [Z.eqb] => idtac | context [rltb] => idtac end; destruct b end;
  cbn [bind] in Hc; try discriminate; injection Hc as <-; cbn [bind b_ts b_mean b_std b_mult];
  split; [autorewrite with lens; lia | intros k; f_equal; autorewrite with push; reflexivity].

(** C53, indicators: moving statistics, momentum, RSI, MACD, average true range *)
Theorem C53_indicators : forall (w : Z) (span fast slow signal : R) (minp : nat), (0 <= w)%Z ->
  causal1 (fun ts => rolling_mean ts w) /\ causal1 (fun ts => rolling_std ts w) /\ causal1 (fun ts => rolling_max ts w)
  /\ causal1 (fun ts => rolling_min ts w) /\ causal1 (fun ts => ewm_mean ts span) /\ causal1 (fun ts => ewm_std ts span)
  /\ causal1 (fun ts => Ok (rolling_mom ts w)) /\ causal1 (fun ts => ewm_mom ts span minp)
  /\ causal3 (fun high low close => average_true_range high low close w)
  /\ causal1 (fun ts => macd ts fast slow) /\ causal1 (fun ts => macd_signal ts fast slow signal)
  /\ causal1 (fun ts => rsi ts w) /\ causal1 (fun ts => ewm_rsi ts span).
Proof.
  intros w span fast slow signal minp Hw.
  unfold rolling_mean, rolling_std, rolling_max, rolling_min, ewm_mean, ewm_std, ewm_mom, average_true_range, macd_signal, macd, rsi, ewm_rsi, gains, losses, where0.
  repeat match goal with |- _ /\ _ => split end; try (causal; fail).
  intros x out H. injection H as <-. unfold rolling_mom. destruct (pref_diff w Hw x) as [L P]. split; [rewrite map_length; auto|]. intros k. rewrite firstn_map', P. reflexivity.
Qed.

(** C53, the five views of each kind of band *)
Theorem C53_bands : forall (view : bands -> list num) (w : Z) (span : R) (mult : num),
  In view [upper; lower; middle; bandwidth; percent_b] ->
  causal1 (fun ts => b <- BollingerBands ts w mult ;; Ok (view b))
  /\ causal1 (fun ts => b <- EwmBollingerBands ts span mult ;; Ok (view b))
  /\ causal1 (fun ts => b <- DonchianBands ts w ;; Ok (view b))
  /\ (forall high low close b, KeltnerBands high low close w span mult = Ok b ->
       (length high = length close -> length low = length close -> length (view b) = length close)
       /\ forall k, (b' <- KeltnerBands (firstn k high) (firstn k low) (firstn k close) w span mult ;; Ok (view b')) = Ok (firstn k (view b))).
Proof.
  intros view w span mult Hv.
  unfold BollingerBands, EwmBollingerBands, DonchianBands, KeltnerBands, rolling_mean, rolling_std, rolling_max, rolling_min, ewm_mean, ewm_std, average_true_range.
  split; [|split; [|split]].
  - cbn [In] in Hv. destruct Hv as [<-|[<-|[<-|[<-|[<-|[]]]]]]; unfold percent_b, bandwidth, middle, upper, lower; causal.
  - cbn [In] in Hv. destruct Hv as [<-|[<-|[<-|[<-|[<-|[]]]]]]; unfold percent_b, bandwidth, middle, upper, lower; causal.
  - cbn [In] in Hv. destruct Hv as [<-|[<-|[<-|[<-|[<-|[]]]]]]; unfold percent_b, bandwidth, middle, upper, lower; causal.
  - intros high low close b Hc.
    unfold rolling, ewm_span, ewm_alpha, ewm_std_span in *.
    repeat match type of Hc with context [if ?b then _ else _] => destruct b end; cbn [bind] in Hc; try discriminate; injection Hc as <-; cbn [bind].
    cbn [In] in Hv. destruct Hv as [<-|[<-|[<-|[<-|[<-|[]]]]]]; unfold percent_b, bandwidth, middle, upper, lower; cbn [b_ts b_mean b_std b_mult];
      (split; [intros; autorewrite with lens; lia | intros k; f_equal; autorewrite with push; reflexivity]).
Qed.

(** a negative window of rolling_mom looks into the future: the momentum of the first row depends on the second *)
Theorem C53_rolling_mom_refuted : exists ts k, (k <= length ts)%nat /\ rolling_mom (firstn k ts) (-1) <> firstn k (rolling_mom ts (-1)).
Proof.
  exists [Fin 1; Fin 3], 1%nat. split; [cbn; lia|]. unfold rolling_mom, diff, shift, lift2. cbn. change (Pos.to_nat 1) with 1%nat. cbn. unfold reqb. destruct (Req_EM_T (-1) 0); [lra|]. discriminate.
Qed.

Lemma firstn_rolling_cov : forall w xs ys k out, rolling_cov w xs ys = Ok out ->
  length out = Nat.max (length xs) (length ys) /\ rolling_cov w (firstn k xs) (firstn k ys) = Ok (firstn k out).
Proof.
  intros w xs ys k out H. unfold rolling_cov in *. destruct (w <? 0)%Z; [discriminate|]. injection H as <-. split; [rewrite map_length, seq_length; reflexivity|].
  f_equal. replace (Nat.max (length (firstn k xs)) (length (firstn k ys))) with (Nat.min k (Nat.max (length xs) (length ys))) by (rewrite !firstn_length; lia).
  symmetry. apply firstn_at. intros i Hi Hn. set (n := Nat.max (length xs) (length ys)) in *.
  assert (G : forall l, firstn (S i) (map (fun i => nth i (firstn k l) NaN) (seq 0 (Nat.min k n))) = firstn (S i) (map (fun i => nth i l NaN) (seq 0 n))).
  { intros l. rewrite (firstn_at (S i) n _ (fun i => nth i l NaN)), (firstn_at (S i) (Nat.min k n) _ (fun i => nth i l NaN)).
    - f_equal. f_equal. lia.
    - intros j Hj1 Hj2. apply nth_first. lia.
    - reflexivity. }
  rewrite !G. reflexivity.
Qed.
Lemma firstn_edge : forall h l o c w s k out, edge_spread h l o c w s = Ok out ->
  length out = Nat.max (Nat.max (length h) (length l)) (Nat.max (length o) (length c))
  /\ edge_spread (firstn k h) (firstn k l) (firstn k o) (firstn k c) w s = Ok (firstn k out).
Proof.
  intros h l o c w s k out H. unfold edge_spread in *. destruct (w <? 1)%Z; [discriminate|]. injection H as <-. split; [rewrite map_length, seq_length; lia|].
  f_equal. replace (Nat.max (Nat.max (length (firstn k o)) (length (firstn k h))) (Nat.max (length (firstn k l)) (length (firstn k c))))
    with (Nat.min k (Nat.max (Nat.max (length o) (length h)) (Nat.max (length l) (length c)))) by (rewrite !firstn_length; lia).
  symmetry. apply firstn_at. intros i Hi Hn. set (n := Nat.max (Nat.max (length o) (length h)) (Nat.max (length l) (length c))) in *.
  assert (G : forall l, firstn (S i) (map (fun i => nth i (firstn k l) NaN) (seq 0 (Nat.min k n))) = firstn (S i) (map (fun i => nth i l NaN) (seq 0 n))).
  { intros x. rewrite (firstn_at (S i) n _ (fun i => nth i x NaN)), (firstn_at (S i) (Nat.min k n) _ (fun i => nth i x NaN)).
    - f_equal. f_equal. lia.
    - intros j Hj1 Hj2. apply nth_first. lia.
    - reflexivity. }
  rewrite !G. reflexivity.
Qed.

(** C53, micro-structure features (the estimated buy volume has the length of the volume) *)
Theorem C53_micro : forall (w : Z) (sign : bool) (cdf : num -> num),
  causal1 (fun c => close_close_volatility c w) /\ causal2 (fun h l => high_low_volatility h l w)
  /\ causal4 (fun h l o c => garman_klass_volatility h l o c w) /\ causal4 (fun h l o c => rogers_satchell_volatility h l o c w)
  /\ causal4 (fun h l o c => yang_zhang_volatility h l o c w) /\ causal2 (fun h l => becker_parkinson_volatility h l w)
  /\ causal2 (fun h l => corwin_schultz_spread h l w) /\ causal1 (fun c => roll_measure c w)
  /\ causal2 (fun c v => roll_impact c v w) /\ causal4 (fun h l o c => edge_spread h l o c w sign)
  /\ causal2 (fun v b => vpin v b w) /\ (forall c v s out, estimate_buy_volume cdf c v s = Ok out -> length out = length v
       /\ forall k, estimate_buy_volume cdf (firstn k c) (firstn k v) (firstn k s) = Ok (firstn k out))
  /\ causal2 (fun c v => kyle_lambda c v w) /\ causal2 (fun c v => amihud_lambda c v w) /\ causal2 (fun c v => hasbrouck_lambda c v w).
Proof.
  intros w sign cdf.
  assert (RM : causal1 (fun c => roll_measure c w)).
  { intros c out H. unfold roll_measure in *. unbind H. injection H as <-. split.
    - destruct (firstn_rolling_cov _ _ _ 0 _ E) as [L _]. rewrite map_length, L, len_shift, len_diff, map_length. lia.
    - intros k. destruct (firstn_rolling_cov _ _ _ k _ E) as [_ P]. rewrite firstn_diff1, firstn_shift1, firstn_diff1, firstn_map' in P. rewrite P. cbn [bind]. f_equal. symmetry. apply firstn_map'. }
  assert (RI : causal2 (fun c v => roll_impact c v w)).
  { intros c v out H. unfold roll_impact in *. unbind H. injection H as <-. destruct (RM c a E) as [L P]. split.
    - autorewrite with lens. lia.
    - intros k. rewrite P. cbn [bind]. autorewrite with push. reflexivity. }
  unfold close_close_volatility, high_low_volatility, garman_klass_volatility, yang_zhang_volatility, rogers_satchell_volatility, rs_terms,
    becker_parkinson_volatility, corwin_schultz_spread, get_beta, get_sigma, get_alpha, get_gamma, vpin, kyle_lambda, amihud_lambda, pct_change, hasbrouck_lambda.
  repeat match goal with |- _ /\ _ => split end; auto; try (causal; fail).
  - intros h l o c out H. split; [apply (proj1 (firstn_edge _ _ _ _ _ _ 0 _ H))|]. intros k. apply firstn_edge. auto.
  - intros c v s out H. unfold estimate_buy_volume in *. destruct (Nat.eqb_spec (length (lift2 ndiv (diff 1 c) s)) (length v)) as [E|NE].
    + injection H as <-. rewrite len_lift2, len_diff in E. split; [autorewrite with lens; lia|]. intros k.
      rewrite (proj2 (Nat.eqb_eq _ _)) by (rewrite len_lift2, len_diff, !firstn_length; lia). f_equal. autorewrite with push. reflexivity.
    + destruct (Nat.eqb_spec (length (lift2 ndiv (diff 1 c) s)) 1) as [E1|]; [|discriminate]. injection H as <-. split; [apply map_length|]. intros k.
      destruct k as [|k]; [reflexivity|].
      assert (EN : lift2 ndiv (diff 1 (firstn (S k) c)) (firstn (S k) s) = lift2 ndiv (diff 1 c) s).
      { rewrite len_lift2, len_diff in E1. rewrite !firstn_all2 by lia. reflexivity. }
      rewrite EN, E1. destruct (Nat.eqb_spec 1 (length (firstn (S k) v))) as [E2|NE2].
      * f_equal. rewrite firstn_map'. assert (LV : forall l, length (firstn (S k) v) = 1%nat -> length l = 1%nat -> lift2 nmul (firstn (S k) v) (map cdf l) = map (fun x => nmul x (cdf (nth 0 l NaN))) (firstn (S k) v)).
        { intros l H1 H2. destruct (firstn (S k) v) as [|y [|y' v']]; try discriminate. destruct l as [|z [|z' l]]; try discriminate. reflexivity. }
        apply LV; auto.
      * cbn [Nat.eqb]. f_equal. rewrite firstn_map'. reflexivity.
Qed.

(** C53, CUSUM test: both series *)
Theorem C53_cusum : forall y, length (fst (cusum_test y)) = length y /\ length (snd (cusum_test y)) = length y
  /\ forall k, cusum_test (firstn k y) = (firstn k (fst (cusum_test y)), firstn k (snd (cusum_test y))).
Proof.
  intros y. unfold cusum_test. cbn [fst snd]. split; [rewrite !map_length, seq_length; reflexivity|]. split; [rewrite !map_length, seq_length; reflexivity|]. intros k.
  assert (H : firstn k (map (cusum_at (map nlog y)) (seq 0 (length y))) = map (cusum_at (map nlog (firstn k y))) (seq 0 (length (firstn k y)))).
  { rewrite firstn_map, firstn_seq, firstn_length. apply map_ext_in. intros t Ht. apply in_seq in Ht. rewrite <- firstn_map. unfold cusum_at. destruct t as [|t]; [reflexivity|].
    set (ly := map nlog y). replace (map (fun i => nsqr (nsub (nth (S i) (firstn k ly) NaN) (nth i (firstn k ly) NaN))) (seq 0 (S t)))
      with (map (fun i => nsqr (nsub (nth (S i) ly NaN) (nth i ly NaN))) (seq 0 (S t))).
    2:{ apply map_ext_in. intros i Hi. apply in_seq in Hi. rewrite !nth_first by lia. reflexivity. }
    cbv zeta. set (sigma := nsqrt _). rewrite (nth_first ly k (S t)) by lia.
    replace (map (fun n => ndiv (nsub (nth (S t) ly NaN) (nth n (firstn k ly) NaN)) (nmul sigma (nsqrt (nofnat (S t - n))))) (seq 0 (S t)))
      with (map (fun n => ndiv (nsub (nth (S t) ly NaN) (nth n ly NaN)) (nmul sigma (nsqrt (nofnat (S t - n))))) (seq 0 (S t))); [reflexivity|].
    apply map_ext_in. intros i Hi. apply in_seq in Hi. rewrite (nth_first ly k i) by lia. reflexivity. }
  rewrite <- H. rewrite <- !firstn_map. reflexivity.
Qed.

(** ** C54 *)
(** all arrays, all Series, and anything else *)
Theorem C54_numpy_pandas : forall (f : list (list num) -> res (list num)) (xs : list (list num)), xs <> [] ->
  numpy_io_support f (map PSeries xs) = (out <- f xs ;; Ok (PSeries out))
  /\ numpy_io_support f (map PArray xs) = (out <- f xs ;; Ok (PArray out))
  /\ (forall out, numpy_io_support f (map PArray xs) = Ok (PArray out) <-> numpy_io_support f (map PSeries xs) = Ok (PSeries out)).
Proof.
  intros f xs Hx.
  assert (CS : forall l, convert (map PSeries l) = Ok (l, 0%nat)) by (induction l as [|x l IH]; [reflexivity|cbn [map convert]; rewrite IH; reflexivity]).
  assert (CA : forall l, convert (map PArray l) = Ok (l, length l)) by (induction l as [|x l IH]; [reflexivity|cbn [map convert]; rewrite IH; reflexivity]).
  assert (E1 : numpy_io_support f (map PSeries xs) = (out <- f xs ;; Ok (PSeries out))) by (unfold numpy_io_support; rewrite CS; reflexivity).
  assert (E2 : numpy_io_support f (map PArray xs) = (out <- f xs ;; Ok (PArray out))).
  { unfold numpy_io_support. rewrite CA. cbn [bind]. rewrite map_length. destruct (Nat.eqb_spec (length xs) 0) as [E|E]; [destruct xs; [congruence|discriminate]|]. rewrite Nat.eqb_refl. reflexivity. }
  split; [auto|]. split; [auto|]. intros out. rewrite E1, E2. destruct (f xs) as [o|e]; cbn [bind]; split; intros H; try discriminate; injection H as <-; reflexivity.
Qed.
Theorem C54_mixtures : forall f args, (In POther args \/ ((exists l, In (PArray l) args) /\ (exists l, In (PSeries l) args))) ->
  numpy_io_support f args = Raise TypeError.
Proof.
  intros f args H.
  assert (C : (In POther args /\ convert args = Raise TypeError) \/ exists v n, convert args = Ok (v, n) /\ (n <= length args)%nat
    /\ ((exists l, In (PArray l) args) -> (0 < n)%nat) /\ ((exists l, In (PSeries l) args) -> (n < length args)%nat) /\ ~ In POther args).
  { clear H. induction args as [|a args IH].
    - right. exists [], 0%nat. cbn. split; [reflexivity|]. split; [lia|]. split; [intros [l []]|]. split; [intros [l []]|]. auto.
    - destruct IH as [[I E]|(v & n & E & L & A & S' & O)].
      + left. split; [right; auto|]. destruct a; cbn [convert]; rewrite ?E; reflexivity.
      + destruct a as [l|l|]; cbn [convert]; rewrite ?E; cbn [bind fst snd].
        * right. exists (l :: v), (S n). cbn [length]. split; [reflexivity|]. split; [lia|]. split; [lia|]. split.
          -- intros [m [Hm|Hm]]; [discriminate|]. assert ((n < length args)%nat) by (apply S'; exists m; auto). lia.
          -- intros [Hm|Hm]; [discriminate|auto].
        * right. exists (l :: v), n. cbn [length]. split; [reflexivity|]. split; [lia|]. split.
          -- intros [m [Hm|Hm]]; [discriminate|]. apply A. exists m. auto.
          -- split; [lia|]. intros [Hm|Hm]; [discriminate|auto].
        * left. split; [left; auto|reflexivity]. }
  unfold numpy_io_support. destruct C as [[_ ->]|(v & n & -> & L & A & S' & O)]; [reflexivity|]. cbn [bind].
  destruct H as [H|[HA HS]]; [contradiction|]. specialize (A HA). specialize (S' HS).
  destruct (Nat.eqb_spec n 0); [lia|]. destruct (Nat.eqb_spec n (length args)); [lia|]. reflexivity.
Qed.

(** non-trivial instances *)
Definition ex_ts : list num := [Fin 1; Fin 3; Fin 2; NaN; Fin 5].
Example C53_example : rolling_max ex_ts 2 = Ok [NaN; Fin 3; Fin 3; NaN; NaN] /\ rolling_max (firstn 3 ex_ts) 2 = Ok [NaN; Fin 3; Fin 3].
Proof.
  unfold rolling_max, rolling, roll, roll_at, ex_ts. change (Z.to_nat 2) with 2%nat. cbn. unfold Rmax. destruct (Rle_dec 1 3), (Rle_dec 3 2); try lra. split; reflexivity.
Qed.
Example C54_example : let f := fun v => rolling_max (nth 0 v []) 2 in
  numpy_io_support f [PArray ex_ts] = Ok (PArray [NaN; Fin 3; Fin 3; NaN; NaN]) /\ numpy_io_support f [PSeries ex_ts] = Ok (PSeries [NaN; Fin 3; Fin 3; NaN; NaN])
  /\ numpy_io_support f [PArray ex_ts; PSeries ex_ts] = Raise TypeError.
Proof.
  cbv zeta. destruct C53_example as [E _]. split; [|split].
  - rewrite (proj1 (proj2 (C54_numpy_pandas _ [ex_ts] ltac:(discriminate)))). cbn [nth]. rewrite E. reflexivity.
  - rewrite (proj1 (C54_numpy_pandas _ [ex_ts] ltac:(discriminate))). cbn [nth]. rewrite E. reflexivity.
  - apply C54_mixtures. right. split; exists ex_ts; [left|right; left]; reflexivity.
Qed.
Print Assumptions C53_indicators. Print Assumptions C53_bands. Print Assumptions C53_rolling_mom_refuted. Print Assumptions C53_micro. Print Assumptions C53_cusum.
Print Assumptions C54_numpy_pandas. Print Assumptions C54_mixtures.
