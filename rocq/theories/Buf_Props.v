(** Property C121: how many rows a feature needs. *)
From Coq Require Import Reals Lra Psatz ZArith List Arith Bool Lia.
From Verif Require Import Base Num Sums Feat_Ops Feat_Spec Feat_Proofs Ewm_Proofs Feat_Model Feat_Causal_Props Feat_Avg_Props Feat_Band_Props Feat_More_Props Buf_Proofs.
Import ListNotations.
Open Scope R_scope.

(** the last k rows up to row i (all rows 0..i if there are fewer) *)
Definition last_rows (k i : nat) (x : list num) : list num := skipn (S i - k) (firstn (S i) x).
(** The value in row i is the last value of the feature of the last k rows alone: nothing before (or after) them matters. *)
Definition needs1 (k : nat) (f : list num -> res (list num)) : Prop :=
  forall x out i, f x = Ok out -> (i < length x)%nat -> exists out', f (last_rows k i x) = Ok out' /\ last out' NaN = nth i out NaN.
Definition needs2 (k : nat) (f : list num -> list num -> res (list num)) : Prop :=
  forall x y out i, f x y = Ok out -> length y = length x -> (i < length x)%nat -> exists out', f (last_rows k i x) (last_rows k i y) = Ok out' /\ last out' NaN = nth i out NaN.
Definition needs4 (k : nat) (f : list num -> list num -> list num -> list num -> res (list num)) : Prop :=
  forall x y z u out i, f x y z u = Ok out -> length y = length x -> length z = length x -> length u = length x -> (i < length x)%nat ->
    exists out', f (last_rows k i x) (last_rows k i y) (last_rows k i z) (last_rows k i u) = Ok out' /\ last out' NaN = nth i out NaN.

Lemma last_nth' : forall (l : list num), last l NaN = nth (length l - 1) l NaN.
Proof.
  induction l as [|a l IH]; [reflexivity|]. destruct l as [|b l]; [reflexivity|]. change (last (a :: b :: l) NaN) with (last (b :: l) NaN). rewrite IH. cbn [length]. replace (S (S (length l)) - 1)%nat with (S (S (length l) - 1)) by lia. reflexivity.
Qed.
(** from rows 0..i to the last k of them *)
Lemma cut_last : forall k i (out out' : list num) n, (1 <= k)%nat -> (i < n)%nat -> length out = n -> tail_of (S i - k) (k - 1) (firstn (S i) out) out' -> ((S i < k)%nat -> out' = firstn (S i) out) -> last out' NaN = nth i out NaN.
Proof.
  intros k i out out' n Hk Hi Hn [L E] H0. rewrite last_nth'. rewrite firstn_length in L. destruct (Nat.lt_ge_cases (S i) k) as [C|C].
  - rewrite (H0 C), firstn_length. rewrite nth_first by lia. f_equal. lia.
  - rewrite E by lia. rewrite nth_first by lia. f_equal. lia.
Qed.
Lemma needs1_intro : forall k f, (1 <= k)%nat -> causal1 f -> (forall x out d, f x = Ok out -> exists out', f (skipn d x) = Ok out' /\ tail_of d (k - 1) out out') -> needs1 k f.
Proof.
  intros k f Hk C T x out i E Hi. destruct (C x out E) as [L P]. specialize (P (S i)). destruct (T _ _ (S i - k)%nat P) as (out' & E' & H). exists out'. split; [exact E'|].
  eapply cut_last; eauto. intros Hlt. replace (S i - k)%nat with 0%nat in E' by lia. cbn [skipn] in E'. congruence.
Qed.
Lemma needs2_intro : forall k f, (1 <= k)%nat -> causal2 f -> (forall x y out d, f x y = Ok out -> exists out', f (skipn d x) (skipn d y) = Ok out' /\ tail_of d (k - 1) out out') -> needs2 k f.
Proof.
  intros k f Hk C T x y out i E Ly Hi. destruct (C x y out E) as [L P]. specialize (P (S i)). destruct (T _ _ _ (S i - k)%nat P) as (out' & E' & H). exists out'. split; [exact E'|].
  apply (cut_last k i out out' (length out)); auto; [lia|]. intros Hlt. replace (S i - k)%nat with 0%nat in E' by lia. cbn [skipn] in E'. congruence.
Qed.
Lemma needs4_intro : forall k f, (1 <= k)%nat -> causal4 f -> (forall x y z u out d, f x y z u = Ok out -> exists out', f (skipn d x) (skipn d y) (skipn d z) (skipn d u) = Ok out' /\ tail_of d (k - 1) out out') -> needs4 k f.
Proof.
  intros k f Hk C T x y z u out i E Ly Lz Lu Hi. destruct (C x y z u out E) as [L P]. specialize (P (S i)). destruct (T _ _ _ _ _ (S i - k)%nat P) as (out' & E' & H). exists out'. split; [exact E'|].
  apply (cut_last k i out out' (length out)); auto; [lia|]. intros Hlt. replace (S i - k)%nat with 0%nat in E' by lia. cbn [skipn] in E'. congruence.
Qed.

Ltac tails := repeat first [apply tail_skipn | apply tail_map | eapply tail_lift2 | eapply tail_shift; [lia|] | eapply tail_diff; [lia|] | eapply tail_roll].
Ltac need C := first [apply needs1_intro | apply needs2_intro | apply needs4_intro]; [lia|exact C|];
  let H := fresh "H" in intros; match goal with E : _ = Ok _ |- _ => rename E into H end; unfold rolling in *;
  repeat match type of H with context [if ?b then _ else _] => match b with context [Z.ltb] => idtac | context [Z.eqb] => idtac end; destruct b end;
  cbn [bind] in *; try discriminate; injection H as <-; eexists; (split; [reflexivity|]); cbn [b_ts b_mean b_std b_mult];
  eapply tail_mono; [|tails]; lia.

Theorem C121_indicators : forall w : nat, (1 <= w)%nat ->
  needs1 w (fun ts => rolling_mean ts (Z.of_nat w)) /\ needs1 w (fun ts => rolling_std ts (Z.of_nat w)) /\ needs1 w (fun ts => rolling_max ts (Z.of_nat w)) /\ needs1 w (fun ts => rolling_min ts (Z.of_nat w)) /\
  needs1 (w + 1) (fun ts => Ok (rolling_mom ts (Z.of_nat w))) /\ needs1 (w + 1) (fun ts => rsi ts (Z.of_nat w)) /\
  (forall view mult, In view [upper; lower; middle; bandwidth; percent_b] ->
     needs1 w (fun ts => b <- BollingerBands ts (Z.of_nat w) mult ;; Ok (view b)) /\ needs1 w (fun ts => b <- DonchianBands ts (Z.of_nat w) ;; Ok (view b))).
Proof.
  intros w Hw. destruct (C53_indicators (Z.of_nat w) 1 1 1 1 0 ltac:(lia)) as (C1 & C2 & C3 & C4 & _ & _ & C5 & _ & _ & _ & _ & C6 & _).
  unfold rolling_mean, rolling_std, rolling_max, rolling_min, rsi, gains, losses, where0 in *.
  split; [need C1|]. split; [need C2|]. split; [need C3|]. split; [need C4|]. split.
  { apply needs1_intro; [lia|exact C5|]. intros x out d H. injection H as <-. eexists. split; [reflexivity|]. unfold rolling_mom. eapply tail_mono; [|tails]. lia. }
  split; [need C6|]. intros view mult Hv. destruct (C53_bands view (Z.of_nat w) 1 mult Hv) as (B1 & _ & B2 & _).
  unfold BollingerBands, DonchianBands, rolling_mean, rolling_std, rolling_max, rolling_min in *.
  cbn [In] in Hv. destruct Hv as [<-|[<-|[<-|[<-|[<-|[]]]]]]; unfold percent_b, bandwidth, middle, upper, lower in *; (split; [need B1|need B2]).
Qed.
Print Assumptions C121_indicators.

Theorem C121_micro : forall (w : nat) (sign : bool), (1 <= w)%nat -> let W := Z.of_nat w in
  needs1 (w + 1) (fun c => close_close_volatility c W) /\ needs2 w (fun h l => high_low_volatility h l W) /\
  needs4 w (fun h l o c => garman_klass_volatility h l o c W) /\ needs4 w (fun h l o c => rogers_satchell_volatility h l o c W) /\
  needs4 (w + 1) (fun h l o c => yang_zhang_volatility h l o c W) /\ needs2 (w + 1) (fun h l => becker_parkinson_volatility h l W) /\
  needs2 (w + 1) (fun h l => corwin_schultz_spread h l W) /\ needs1 (w + 2) (fun c => roll_measure c W) /\ needs2 (w + 2) (fun c v => roll_impact c v W) /\
  needs4 w (fun h l o c => edge_spread h l o c W sign) /\ needs2 w (fun v b => vpin v b W) /\
  needs2 (w + 1) (fun c v => kyle_lambda c v W) /\ needs2 (w + 1) (fun c v => hasbrouck_lambda c v W).
Proof.
  intros w sign Hw W. destruct (C53_micro W sign (fun x => x)) as (C1 & C2 & C3 & C4 & C5 & C6 & C7 & C8 & C9 & C10 & C11 & _ & C12 & _ & C13). unfold W in *.
  assert (RM : forall c out d, roll_measure c (Z.of_nat w) = Ok out -> exists out', roll_measure (skipn d c) (Z.of_nat w) = Ok out' /\ tail_of d (w + 1) out out').
  { intros c out d E. unfold roll_measure in *. apply bind_ok in E as (r & E & Er). injection Er as <-.
    destruct (rolling_cov (Z.of_nat w) (diff 1 (map nlog (skipn d c))) (shift 1 (diff 1 (map nlog (skipn d c))))) as [r'|] eqn:E'; [|unfold rolling_cov in E'; destruct (Z.ltb_spec (Z.of_nat w) 0); [lia|discriminate]].
    eexists. split; [reflexivity|]. apply tail_map. eapply tail_mono; [|eapply (tail_rolling_cov d 2 (Z.of_nat w)); [lia| | |exact E|exact E']].
    - lia.
    - eapply tail_mono; [|tails]. cbn. lia.
    - eapply tail_mono; [|tails]. cbn. lia. }
  unfold close_close_volatility, high_low_volatility, garman_klass_volatility, rogers_satchell_volatility, yang_zhang_volatility, becker_parkinson_volatility, corwin_schultz_spread, get_beta, get_gamma, get_alpha, get_sigma, rs_terms, vpin, kyle_lambda, hasbrouck_lambda, rogers_satchell_volatility, rs_terms in *.
  split; [need C1|]. split; [need C2|]. split; [need C3|]. split; [need C4|]. split; [need C5|]. split; [need C6|]. split; [need C7|].
  split. { apply needs1_intro; [lia|exact C8|]. intros c out d E. destruct (RM c out d E) as (out' & E' & T). exists out'. split; [exact E'|]. eapply tail_mono; [|exact T]. lia. }
  split. { apply needs2_intro; [lia|exact C9|]. intros c v out d E. unfold roll_impact in *. apply bind_ok in E as (r & E & Er). injection Er as <-. destruct (RM c r d E) as (r' & E' & T). rewrite E'. eexists. split; [reflexivity|].
    eapply tail_mono; [|apply tail_lift2; [exact T|tails]]. lia. }
  split. { apply needs4_intro; [lia|exact C10|]. intros h l o c out d E. destruct (edge_spread (skipn d h) (skipn d l) (skipn d o) (skipn d c) (Z.of_nat w) sign) as [out'|] eqn:E'; [|unfold edge_spread in E'; destruct (Z.ltb_spec (Z.of_nat w) 1); [lia|discriminate]].
    exists out'. split; [reflexivity|]. eapply tail_mono; [|eapply tail_edge; [| | | |exact E|exact E']; apply tail_skipn]. lia. }
  split; [need C11|]. split; [need C12|need C13].
Qed.
Print Assumptions C121_micro.

(** ** Amihud's lambda: pct_change repeats the last known price across a gap, so a gap-free price series is needed *)
Lemma ffill_complete : forall x, (forall v, In v x -> v <> NaN) -> ffill x = x.
Proof.
  assert (G : forall x p, (forall v, In v x -> v <> NaN) -> ffill_from p x = x).
  { induction x as [|a x IH]; intros p H; [reflexivity|]. cbn [ffill_from]. assert (E : is_nan a = false) by (specialize (H a (or_introl eq_refl)); destruct a; auto; congruence).
    rewrite E. rewrite IH by (intros v Hv; apply H; right; exact Hv). reflexivity. }
  intros x H. apply G. exact H.
Qed.
Lemma In_skipn : forall A d (x : list A) v, In v (skipn d x) -> In v x.
Proof. intros A d x v H. rewrite <- (firstn_skipn d x). apply in_or_app. right. exact H. Qed.
Lemma In_firstn : forall A d (x : list A) v, In v (firstn d x) -> In v x.
Proof. intros A d x v H. rewrite <- (firstn_skipn d x). apply in_or_app. left. exact H. Qed.
Theorem C121_amihud : forall (w : nat) c v out i, (1 <= w)%nat -> (forall p, In p c -> p <> NaN) -> amihud_lambda c v (Z.of_nat w) = Ok out -> length v = length c -> (i < length c)%nat ->
  exists out', amihud_lambda (last_rows (w + 1) i c) (last_rows (w + 1) i v) (Z.of_nat w) = Ok out' /\ last out' NaN = nth i out NaN.
Proof.
  intros w c v out i Hw Hc E Lv Hi. destruct (C53_micro (Z.of_nat w) true (fun x => x)) as (_ & _ & _ & _ & _ & _ & _ & _ & _ & _ & _ & _ & _ & C & _).
  destruct (C c v out E) as [L P]. specialize (P (S i)). unfold last_rows.
  assert (T : exists out', amihud_lambda (skipn (S i - (w + 1)) (firstn (S i) c)) (skipn (S i - (w + 1)) (firstn (S i) v)) (Z.of_nat w) = Ok out' /\ tail_of (S i - (w + 1)) (w + 1 - 1) (firstn (S i) out) out').
  { unfold amihud_lambda, pct_change in *. rewrite ffill_complete in P by (intros q Hq; apply Hc; eapply In_firstn; exact Hq).
    rewrite ffill_complete by (intros q Hq; apply Hc; eapply In_firstn; eapply In_skipn; exact Hq).
    remember (firstn (S i) out) as oo eqn:Eoo. clear Eoo. rewrite rolling_ok in * by lia. injection P as <-. eexists. split; [reflexivity|]. eapply tail_mono; [|tails]. lia. }
  destruct T as (out' & E' & T). exists out'. split; [exact E'|]. apply (cut_last (w + 1) i out out' (length out)); auto; [lia|lia|]. intros Hlt. replace (S i - (w + 1))%nat with 0%nat in E' by lia. cbn [skipn] in E'. congruence.
Qed.
Print Assumptions C121_amihud.

Lemma ffill_from_gap : forall k a z, ffill_from a (repeat NaN k ++ [Fin z]) = repeat a k ++ [Fin z].
Proof. induction k as [|k IH]; intros; [reflexivity|]. cbn [repeat app ffill_from is_nan]. rewrite IH. reflexivity. Qed.
Lemma roll1_last : forall agg l, (0 < length l)%nat -> nth (length l - 1) (roll 1 agg l) NaN = match nth (length l - 1) l NaN with Fin r => agg [r] | _ => NaN end.
Proof.
  intros agg l H. rewrite nth_roll by lia. unfold roll_at. destruct (Nat.ltb_spec (S (length l - 1)) 1) as [|_]; [lia|].
  rewrite firstn_all2 by lia. replace (S (length l - 1) - 1)%nat with (length l - 1)%nat by lia.
  assert (E : skipn (length l - 1) l = [nth (length l - 1) l NaN]).
  { apply list_ext; [rewrite skipn_length; cbn [length]; lia|]. rewrite skipn_length. intros j Hj. rewrite nth_skipn'. replace j with 0%nat by lia. rewrite Nat.add_0_r. reflexivity. }
  rewrite E. destruct (nth (length l - 1) l NaN); reflexivity.
Qed.
(** one price, a gap of any length, one more price: the last row still uses the first price *)
Theorem C121_amihud_refuted : forall k, ~ needs2 k (fun c v => amihud_lambda c v 1).
Proof.
  intros k H. set (c := Fin 1 :: repeat NaN k ++ [Fin 2]). set (v := repeat (Fin 1) (k + 2)).
  assert (Lc : length c = (k + 2)%nat) by (unfold c; cbn [length]; rewrite app_length, repeat_length; cbn [length]; lia).
  assert (Lv : length v = length c) by (unfold v; rewrite repeat_length; lia).
  destruct (H c v (roll 1 agg_mean (lift2 ndiv (map nabs (pct_change c)) (lift2 nmul v c))) (k + 1)%nat eq_refl Lv ltac:(lia)) as (out' & E & V).
  assert (F : nth (k + 1) (roll 1 agg_mean (lift2 ndiv (map nabs (pct_change c)) (lift2 nmul v c))) NaN = Fin (1 / 2)).
  { set (q := lift2 ndiv (map nabs (pct_change c)) (lift2 nmul v c)). assert (Lq : length q = (k + 2)%nat).
    { unfold q. rewrite !len_lift2, map_length. unfold pct_change. rewrite map_length, len_lift2, len_shift, (proj1 (pref_ffill c)). lia. }
    pose proof (roll1_last agg_mean q ltac:(lia)) as R1. rewrite Lq in R1. replace (k + 2 - 1)%nat with (k + 1)%nat in R1 by lia. rewrite R1.
    assert (Q : nth (k + 1) q NaN = Fin (1 / 2)).
    { unfold q. rewrite nth_lift2 by reflexivity. rewrite nth_map_nan by reflexivity. rewrite nth_lift2 by reflexivity. unfold pct_change. rewrite nth_map_nan by reflexivity. rewrite nth_lift2 by reflexivity. rewrite nth_shift1.
      assert (FF : ffill c = Fin 1 :: repeat (Fin 1) k ++ [Fin 2]) by (unfold ffill, c; cbn [ffill_from is_nan]; rewrite ffill_from_gap; reflexivity).
      rewrite FF. replace (length (Fin 1 :: repeat (Fin 1) k ++ [Fin 2])) with (k + 2)%nat by (cbn [length]; rewrite app_length, repeat_length; cbn [length]; lia).
      replace (k + 1)%nat with (S k) by lia. destruct (Nat.ltb_spec (S k) (k + 2)) as [_|]; [|lia].
      assert (A1 : forall u, nth (S k) (Fin 1 :: repeat u k ++ [Fin 2]) NaN = Fin 2) by (intros u; cbn [nth]; rewrite app_nth2 by (rewrite repeat_length; lia); rewrite repeat_length, Nat.sub_diag; reflexivity).
      unfold c. rewrite !A1.
      assert (B : nth k (Fin 1 :: repeat (Fin 1) k ++ [Fin 2]) NaN = Fin 1).
      { destruct k as [|k']; [reflexivity|]. cbn [nth]. rewrite app_nth1 by (rewrite repeat_length; lia). apply nth_repeat_lt || (apply (repeat_spec (S k') (Fin 1)), nth_In; rewrite repeat_length; lia). }
      rewrite B. assert (Bv : nth (S k) v NaN = Fin 1) by (apply (repeat_spec (k + 2) (Fin 1)); apply nth_In; unfold v; rewrite repeat_length; lia). rewrite Bv.
      assert (Z1 : reqb 1 0 = false) by (unfold reqb; destruct (Req_EM_T 1 0); [lra|reflexivity]). assert (Z2 : reqb (1 * 2) 0 = false) by (unfold reqb; destruct (Req_EM_T (1 * 2) 0); [lra|reflexivity]).
      unfold ndiv, nmul. rewrite Z1. unfold nsub, nabs, nadd, nneg. rewrite Z2. f_equal. rewrite Rabs_pos_eq by lra. lra. }
    rewrite Q. rewrite agg_mean_fin by discriminate. f_equal. unfold rmean. cbn. lra. }
  rewrite F in V. clear F. unfold amihud_lambda in E. rewrite rolling_ok in E by lia. injection E as <-. 
  assert (Ec : last_rows k (k + 1) c = match k with O => [] | S k' => repeat NaN k' ++ [Fin 2] end).
  { unfold last_rows. rewrite firstn_all2 by lia. replace (S (k + 1) - k)%nat with 2%nat by lia. unfold c. destruct k as [|k']; reflexivity. }
  rewrite Ec in V. destruct k as [|k'].
  { unfold last_rows in V. rewrite firstn_all2 in V by lia. cbn [Nat.sub Nat.add] in V. unfold v in V. cbn in V. discriminate. }
  set (c' := repeat NaN k' ++ [Fin 2]) in *. set (v' := last_rows (S k') (S k' + 1) v) in *.
  assert (Lc' : length c' = S k') by (unfold c'; rewrite app_length, repeat_length; cbn [length]; lia).
  assert (Lv' : length v' = S k') by (unfold v', last_rows; rewrite skipn_length, firstn_length; lia).
  set (q := lift2 ndiv (map nabs (pct_change c')) (lift2 nmul v' c')) in *. assert (Lq : length q = S k').
  { unfold q. rewrite !len_lift2, map_length. unfold pct_change. rewrite map_length, len_lift2, len_shift, (proj1 (pref_ffill c')). lia. }
  rewrite last_nth', len_roll in V. change (Z.to_nat 1) with 1%nat in V. rewrite roll1_last in V by lia.
  assert (Q : nth (length q - 1) q NaN = NaN).
  { rewrite Lq. unfold q. rewrite nth_lift2 by reflexivity. rewrite nth_map_nan by reflexivity. unfold pct_change. rewrite nth_map_nan by reflexivity. rewrite nth_lift2 by reflexivity. rewrite nth_shift1.
    assert (FF : ffill c' = c') by apply ffill_from_gap. rewrite FF. replace (S k' - 1)%nat with k' by lia. destruct k' as [|k'']; [reflexivity|]. destruct (Nat.ltb_spec (S k'') (length c')) as [_|]; [|lia].
    assert (B : nth k'' c' NaN = NaN).
    { unfold c'. rewrite app_nth1 by (rewrite repeat_length; lia). apply (repeat_spec (S k'') NaN). apply nth_In. rewrite repeat_length. lia. }
    rewrite B. destruct (nth (S k'') c' NaN); reflexivity. }
  rewrite Q in V. discriminate.
Qed.
Print Assumptions C121_amihud_refuted.

(** ** Exponential averages: no number of rows suffices exactly, but the error dies out geometrically *)
Lemma wsum_split : forall a f l d m, (1 <= d)%nat -> wsum a f l (d + m) = wsum a f (skipn d l) m + (1 - a) ^ (m + 1) * wsum a f l (d - 1).
Proof.
  intros a f l d m Hd. induction m as [|m IH].
  - rewrite wsum_0, nth_skipn'. replace (d + 0)%nat with (S (d - 1)) by lia. rewrite wsum_S. cbn [Nat.add pow]. lra.
  - replace (d + S m)%nat with (S (d + m)) by lia. rewrite !wsum_S, IH, nth_skipn'. replace (d + S m)%nat with (S (d + m)) by lia. cbn [Nat.add pow]. ring.
Qed.
Lemma wsum_one_le : forall a l i, 0 < a <= 1 -> wsum a (fun _ => 1) l i <= / a.
Proof.
  intros a l i Ha. assert (A1 : 1 <= / a) by (rewrite <- Rinv_1 at 1; apply Rinv_le_contravar; lra). assert (A2 : a * / a = 1) by (apply Rinv_r; lra).
  induction i as [|i IH]; [rewrite wsum_0|rewrite wsum_S]; match goal with |- context [nth ?k l NaN] => destruct (nth k l NaN) as [r| | |]; cbn [on_present] end; nra.
Qed.
Lemma wsum_abs : forall a l i M, 0 < a <= 1 -> (forall j x, (j <= i)%nat -> nth j l NaN = Fin x -> Rabs x <= M) -> Rabs (wsum a (fun x => x) l i) <= M * wsum a (fun _ => 1) l i.
Proof.
  intros a l i M Ha. induction i as [|i IH]; intros B.
  - rewrite !wsum_0. destruct (nth 0 l NaN) as [x| | |] eqn:E; cbn [on_present]; rewrite ?Rabs_R0; try lra. specialize (B 0%nat x (le_n _) E). lra.
  - rewrite !wsum_S. specialize (IH ltac:(intros j x Hj; apply B; lia)).
    eapply Rle_trans; [apply Rabs_triang|]. rewrite Rabs_mult, (Rabs_pos_eq (1 - a)) by lra.
    assert (P : Rabs (on_present (fun x => x) (nth (S i) l NaN)) <= M * on_present (fun _ => 1) (nth (S i) l NaN)).
    { destruct (nth (S i) l NaN) as [x| | |] eqn:E; cbn [on_present]; rewrite ?Rabs_R0; try lra. specialize (B (S i) x (le_n _) E). lra. }
    pose proof (Rmult_le_compat_l (1 - a) _ _ ltac:(lra) IH). lra.
Qed.
Lemma nth_out_rows : forall (l : list num) d i x, nth i l NaN = Fin x -> (d <= i)%nat -> nth (i - d) (skipn d (firstn (S i) l)) NaN = Fin x.
Proof. intros l d i x E H. rewrite nth_skipn'. replace (d + (i - d))%nat with i by lia. rewrite nth_first by lia. exact E. Qed.
Lemma wsum_first : forall a f l n i, (i < n)%nat -> wsum a f (firstn n l) i = wsum a f l i.
Proof. intros a f l n i H. induction i as [|i IH]; [rewrite !wsum_0|rewrite !wsum_S, IH by lia]; rewrite nth_first by lia; reflexivity. Qed.
Theorem C121_ewm : forall ts span k M i x out, 1 <= span -> (1 <= k)%nat -> (i < length ts)%nat -> nth i ts NaN = Fin x ->
  (forall j y, (j <= i)%nat -> nth j ts NaN = Fin y -> Rabs y <= M) -> ewm_mean ts span = Ok out ->
  exists out' m m', ewm_mean (last_rows k i ts) span = Ok out' /\ nth i out NaN = Fin m /\ last out' NaN = Fin m' /\ Rabs (m - m') <= M * (span + 1) * (1 - 2 / (span + 1)) ^ k.
Proof.
  intros ts span k M i x out Hs Hk Hi Ex B E. pose proof (alpha_span span Hs) as Ha. set (a := 2 / (span + 1)) in *.
  destruct (C56_weighted_mean ts span Hs) as (o & Eo & Lo & Row). rewrite E in Eo. injection Eo as <-. cbv zeta in Row. fold a in Row. destruct (Row i Hi) as (R1 & _ & _). destruct (R1 x Ex) as [W1 V1]. clear R1 Row.
  destruct (C56_weighted_mean (last_rows k i ts) span Hs) as (o' & Eo' & Lo' & Row'). cbv zeta in Row'. fold a in Row'.
  assert (Ll : length (last_rows k i ts) = (S i - (S i - k))%nat) by (unfold last_rows; rewrite skipn_length, firstn_length; lia).
  set (d := (S i - k)%nat) in *. set (m := (i - d)%nat).
  assert (Xm : nth m (last_rows k i ts) NaN = Fin x) by (unfold last_rows, m; fold d; apply nth_out_rows; [exact Ex|unfold d; lia]).
  destruct (Row' m ltac:(rewrite Ll; unfold m; unfold d; lia)) as (R1 & _ & _). destruct (R1 x Xm) as [W1' V1']. clear R1 Row'.
  exists o'. eexists _, _. split; [exact Eo'|]. split; [exact V1|]. split.
  { rewrite last_nth'. replace (length o' - 1)%nat with m; [exact V1'|]. rewrite Lo', Ll. unfold m, d. lia. }
  unfold last_rows in *. fold d in W1', V1' |- *.
  assert (M0 : 0 <= M) by (eapply Rle_trans; [apply Rabs_pos|apply (B i x (le_n _) Ex)]).
  assert (Q0 : 0 <= (1 - a) ^ k) by (apply pow_le; lra).
  assert (Sp : / a = (span + 1) / 2) by (unfold a; field; lra).
  destruct (Nat.eq_dec d 0) as [D0|D0].
  - assert (Em : m = i) by (unfold m; lia). rewrite D0 in *. cbn [skipn] in *. rewrite Em in *. rewrite !wsum_first by lia. unfold Rminus. rewrite Rplus_opp_r, Rabs_R0. apply Rmult_le_pos; [apply Rmult_le_pos; lra|exact Q0].
  - assert (Sk : forall f, wsum a f ts i = wsum a f (skipn d (firstn (S i) ts)) m + (1 - a) ^ k * wsum a f ts (d - 1)).
    { intros f. pose proof (wsum_split a f (firstn (S i) ts) d m ltac:(lia)) as Hsp. replace (d + m)%nat with i in Hsp by (unfold m, d; lia). replace (m + 1)%nat with k in Hsp by (unfold m, d; unfold d in D0; lia).
      rewrite !wsum_first in Hsp by (unfold d; lia). exact Hsp. }
    pose proof (Sk (fun x => x)) as SX. pose proof (Sk (fun _ => 1)) as SW. clear Sk. cbn beta in SX, SW.
    pose proof (wsum_one_le a ts (d - 1) Ha) as Wp. pose proof (wsum_nonneg a (fun _ => 1) ts (d - 1) ltac:(lra) ltac:(intros; lra)) as Wp0.
    pose proof (wsum_abs a ts (d - 1) M Ha ltac:(intros j y Hj; apply B; unfold d in Hj; lia)) as Xp.
    pose proof (wsum_abs a (skipn d (firstn (S i) ts)) m M Ha) as Xr. assert (Xr' : Rabs (wsum a (fun x => x) (skipn d (firstn (S i) ts)) m) <= M * wsum a (fun _ => 1) (skipn d (firstn (S i) ts)) m).
    { apply Xr. intros j y Hj Ey. rewrite nth_skipn', nth_first in Ey by (unfold m in Hj; unfold d in *; lia). apply (B (d + j)%nat y); [unfold m in Hj; unfold d in *; lia|exact Ey]. } clear Xr.
    set (Wr := wsum a (fun _ => 1) (skipn d (firstn (S i) ts)) m) in *. set (Xs := wsum a (fun x => x) (skipn d (firstn (S i) ts)) m) in *.
    set (W := wsum a (fun _ => 1) ts i) in *. set (X := wsum a (fun x => x) ts i) in *. set (Wb := wsum a (fun _ => 1) ts (d - 1)) in *. set (Xb := wsum a (fun x => x) ts (d - 1)) in *. set (q := (1 - a) ^ k) in *.
    assert (Eq : X / W - Xs / Wr = q * ((Xb - (Xs / Wr) * Wb) / W)) by (rewrite SX; rewrite SW in W1 |- *; field; split; lra).
    assert (Bm : Rabs (Xs / Wr) <= M).
    { unfold Rdiv. rewrite Rabs_mult, (Rabs_pos_eq (/ Wr)) by (left; apply Rinv_0_lt_compat; lra). apply (Rmult_le_reg_r Wr); [lra|]. rewrite Rmult_assoc, Rinv_l by lra. lra. }
    rewrite Eq, Rabs_mult, (Rabs_pos_eq q) by exact Q0. rewrite (Rmult_comm q). apply Rmult_le_compat_r; [exact Q0|].
    unfold Rdiv at 1. rewrite Rabs_mult, (Rabs_pos_eq (/ W)) by (left; apply Rinv_0_lt_compat; lra).
    apply (Rmult_le_reg_r W); [lra|]. rewrite Rmult_assoc, Rinv_l by lra. rewrite Rmult_1_r.
    assert (N : Rabs (Xb - Xs / Wr * Wb) <= M * Wb + M * Wb).
    { unfold Rminus. eapply Rle_trans; [apply Rabs_triang|]. rewrite Rabs_Ropp, Rabs_mult, (Rabs_pos_eq Wb) by exact Wp0. pose proof (Rmult_le_compat_r Wb _ _ Wp0 Bm). lra. }
    rewrite Sp in Wp. assert (N2 : M * Wb <= M * ((span + 1) / 2)) by (apply Rmult_le_compat_l; lra).
    assert (N3 : M * (span + 1) * 1 <= M * (span + 1) * W) by (apply Rmult_le_compat_l; [apply Rmult_le_pos; lra|lra]). lra.
Qed.
Print Assumptions C121_ewm.
Theorem C121_ewm_refuted : forall span k, 1 < span -> ~ needs1 k (fun ts => ewm_mean ts span).
Proof.
  intros span k Hs H. set (ts := Fin 1 :: repeat (Fin 0) k). pose proof (alpha_span span ltac:(lra)) as Ha. pose proof (alpha_span' span Hs) as Ha'. set (a := 2 / (span + 1)) in *.
  assert (Lt : length ts = S k) by (unfold ts; cbn [length]; rewrite repeat_length; reflexivity).
  destruct (C56_weighted_mean ts span ltac:(lra)) as (out & E & Lo & Row). cbv zeta in Row. fold a in Row.
  assert (Z0 : forall j, (1 <= j <= k)%nat -> nth j ts NaN = Fin 0). { intros j Hj. unfold ts. destruct j as [|j]; [lia|]. cbn [nth]. apply (repeat_spec k (Fin 0)). apply nth_In. rewrite repeat_length. lia. }
  assert (Ek : exists x, nth k ts NaN = Fin x) by (destruct k as [|k']; [exists 1; reflexivity|exists 0; apply Z0; lia]). destruct Ek as [x Ek].
  destruct (Row k ltac:(lia)) as (R1 & _ & _). destruct (R1 x Ek) as [W1 V]. clear R1 Row.
  assert (X : wsum a (fun x => x) ts k = (1 - a) ^ k).
  { assert (G : forall j, (j <= k)%nat -> wsum a (fun x => x) ts j = (1 - a) ^ j). { induction j as [|j IH]; intros Hj; [rewrite wsum_0; cbn; reflexivity|]. rewrite wsum_S, IH by lia. rewrite Z0 by lia. cbn [on_present pow]. lra. } apply G. lia. }
  destruct (H ts out k E ltac:(lia)) as (out' & E' & V').
  assert (Er : last_rows k k ts = repeat (Fin 0) k). { unfold last_rows. rewrite firstn_all2 by lia. replace (S k - k)%nat with 1%nat by lia. reflexivity. }
  rewrite Er in E'. apply C56_constant in E'. subst out'. rewrite V in V'. rewrite last_nth', repeat_length in V'. destruct k as [|k']; [discriminate|].
  assert (E0 : nth (S k' - 1) (repeat (Fin 0) (S k')) NaN = Fin 0) by (apply (repeat_spec (S k') (Fin 0)); apply nth_In; rewrite repeat_length; lia). rewrite E0 in V'. injection V' as V'.
  assert (P : 0 < (1 - a) ^ S k') by (apply pow_lt; lra). assert (P2 : 0 < wsum a (fun x => x) ts (S k') / wsum a (fun _ => 1) ts (S k')) by (rewrite X; apply Rdiv_lt_0_compat; lra). lra.
Qed.
Print Assumptions C121_ewm_refuted.

(** ** The numbers of rows are the smallest possible *)
Lemma repeat_win : forall (v : num) n k, (k <= n)%nat -> last_rows k (n - 1) (repeat v n) = repeat v k.
Proof.
  intros v n k H. unfold last_rows. rewrite firstn_all2 by (rewrite repeat_length; lia). destruct (Nat.eq_dec k n) as [->|].
  - replace (S (n - 1) - n)%nat with (if Nat.eqb n 0 then 1 else 0)%nat by (destruct n; cbn; lia). destruct n; reflexivity.
  - replace (S (n - 1) - k)%nat with (n - k)%nat by lia. replace n with ((n - k) + k)%nat at 2 by lia. rewrite repeat_app. rewrite skipn_app, repeat_length, Nat.sub_diag. rewrite skipn_all2 by (rewrite repeat_length; lia). reflexivity.
Qed.
Lemma roll_short : forall w agg l, (length l < w)%nat -> last (roll w agg l) NaN = NaN.
Proof.
  intros w agg l H. rewrite last_nth', len_roll. destruct l as [|a l]; [reflexivity|]. rewrite nth_roll by (cbn [length]; lia). unfold roll_at. destruct (Nat.ltb_spec (S (length (a :: l) - 1)) w); [reflexivity|]. cbn [length] in *. lia.
Qed.
Lemma zeros : forall w, repeat (Fin 0) w = map Fin (repeat 0 w).
Proof. induction w as [|w IH]; [reflexivity|]. cbn [repeat map]. rewrite IH. reflexivity. Qed.
Lemma roll_const : forall w agg, (1 <= w)%nat -> nth (w - 1) (roll w agg (repeat (Fin 0) w)) NaN = agg (repeat 0 w).
Proof.
  intros w agg H. rewrite nth_roll by (rewrite repeat_length; lia). unfold roll_at. destruct (Nat.ltb_spec (S (w - 1)) w) as [|_]; [lia|].
  change (skipn (S (w - 1) - w) (firstn (S (w - 1)) (repeat (Fin 0) w))) with (last_rows w (w - 1) (repeat (Fin 0) w)). rewrite repeat_win by lia.
  rewrite zeros, finite_map. reflexivity.
Qed.
Theorem C121_smallest : forall w k : nat, (1 <= w)%nat ->
  (needs1 k (fun ts => rolling_mean ts (Z.of_nat w)) <-> (w <= k)%nat) /\ (needs1 k (fun ts => rolling_max ts (Z.of_nat w)) <-> (w <= k)%nat) /\
  (needs1 k (fun ts => rolling_min ts (Z.of_nat w)) <-> (w <= k)%nat) /\ (needs1 k (fun ts => Ok (rolling_mom ts (Z.of_nat w))) <-> (w + 1 <= k)%nat).
Proof.
  intros w k Hw.
  assert (Up : forall f k0, (1 <= k0)%nat -> (k0 <= k)%nat -> causal1 f -> (forall x out d, f x = Ok out -> exists out', f (skipn d x) = Ok out' /\ tail_of d (k0 - 1) out out') -> needs1 k f).
  { intros f k0 H0 H1 C T. apply needs1_intro; [lia|exact C|]. intros x out d E. destruct (T x out d E) as (o & E2 & T2). exists o. split; [exact E2|]. eapply tail_mono; [|exact T2]. lia. }
  destruct (C53_indicators (Z.of_nat w) 1 1 1 1 0 ltac:(lia)) as (C1 & _ & C3 & C4 & _ & _ & C5 & _).
  assert (Roll : forall agg r, agg (repeat 0 w) = Fin r -> causal1 (fun ts => rolling (Z.of_nat w) agg ts) -> (needs1 k (fun ts => rolling (Z.of_nat w) agg ts) <-> (w <= k)%nat)).
  { intros agg r Er C. split.
    - intros N. destruct (Nat.le_gt_cases w k) as [|L]; [assumption|exfalso].
      destruct (N (repeat (Fin 0) w) (roll w agg (repeat (Fin 0) w)) (w - 1)%nat ltac:(rewrite rolling_ok by lia; rewrite Nat2Z.id; reflexivity) ltac:(rewrite repeat_length; lia)) as (o & E & V).
      rewrite roll_const, Er in V by lia. rewrite repeat_win in E by lia. rewrite rolling_ok in E by lia. injection E as <-. rewrite Nat2Z.id in V. rewrite roll_short in V by (rewrite repeat_length; lia). discriminate.
    - intros L. apply (Up _ w); auto. intros x out d E. rewrite rolling_ok in * by lia. injection E as <-. eexists. split; [reflexivity|]. eapply tail_mono; [|tails]. lia. }
  split; [|split; [|split]].
  - apply (Roll agg_mean (rmean (repeat 0 w))); [apply agg_mean_fin; destruct w; [lia|discriminate]|exact C1].
  - unfold rolling_max. apply (Roll agg_max (fold_left Rmax (repeat 0 (w - 1)) 0)); [destruct w; [lia|]; cbn [repeat]; rewrite Nat.sub_1_r; reflexivity|exact C3].
  - unfold rolling_min. apply (Roll agg_min (fold_left Rmin (repeat 0 (w - 1)) 0)); [destruct w; [lia|]; cbn [repeat]; rewrite Nat.sub_1_r; reflexivity|exact C4].
  - split.
    + intros N. destruct (Nat.le_gt_cases (w + 1) k) as [|L]; [assumption|exfalso].
      destruct (N (repeat (Fin 0) (w + 1)) (rolling_mom (repeat (Fin 0) (w + 1)) (Z.of_nat w)) (w + 1 - 1)%nat eq_refl ltac:(rewrite repeat_length; lia)) as (o & E & V). rewrite repeat_win in E by lia. assert (Eo : o = rolling_mom (repeat (Fin 0) k) (Z.of_nat w)) by congruence. subst o.
      assert (G : forall j, (j < w + 1)%nat -> nth j (repeat (Fin 0) (w + 1)) NaN = Fin 0) by (intros j Hj; apply (repeat_spec (w + 1) (Fin 0)); apply nth_In; rewrite repeat_length; lia).
      destruct (C92_rolling (repeat (Fin 0) (w + 1)) w (w + 1 - 1) Hw) as (_ & _ & Full & _). rewrite (Full 0 0) in V by (auto; try lia; apply G; lia).
      destruct (C92_rolling (repeat (Fin 0) k) w (k - 1) Hw) as (Ls & Short & _). rewrite last_nth', Ls, repeat_length in V. rewrite Short in V by lia. discriminate.
    + intros L. apply (Up _ (w + 1)%nat); auto; [lia|]. intros x out d E. injection E as <-. eexists. split; [reflexivity|]. unfold rolling_mom. eapply tail_mono; [|tails]. lia.
Qed.
Print Assumptions C121_smallest.

(** One row less is dangerous for RSI: it counts the unknown first change as 0, so the last w rows give a number, but a wrong one. *)
Theorem C121_rsi_short_refuted : forall w : nat, (2 <= w)%nat -> exists x i out out' r, (i < length x)%nat /\ rsi x (Z.of_nat w) = Ok out /\ rsi (last_rows w i x) (Z.of_nat w) = Ok out' /\
  nth i out NaN = Fin r /\ 0 < r /\ last out' NaN = Fin 0.
Proof.
  intros w Hw. set (x' := 1 :: repeat 0 (w - 1)). set (x := 0 :: x'). assert (Lx' : length x' = w) by (unfold x'; cbn [length]; rewrite repeat_length; lia). assert (Lx : length x = S w) by (unfold x; cbn [length]; lia).
  assert (N0 : forall j, (1 <= j)%nat -> nth j x' 0 = 0). { intros [|j] Hj; [lia|]. unfold x'. cbn [nth]. destruct (Nat.lt_ge_cases j (w - 1)); [apply (repeat_spec (w - 1) 0); apply nth_In; rewrite repeat_length; lia|apply nth_overflow; rewrite repeat_length; lia]. }
  destruct (C58_value x w w ltac:(lia) ltac:(lia)) as (out & E & _ & V). destruct (V ltac:(lia)) as [_ V2]. clear V. replace (S w - w)%nat with 1%nat in V2 by lia.
  set (up := sumn w (fun j => Rmax (change x (1 + j)) 0)) in *. set (down := sumn w (fun j => Rmax (- change x (1 + j)) 0)) in *.
  assert (D : 0 <= down) by (apply S_nonneg; intros; apply Rmax_r).
  assert (U : 1 <= up).
  { assert (G : forall n f, (1 <= n)%nat -> (forall j, 0 <= f j) -> f 0%nat <= sumn n f). { intros n f Hn Hf. induction n as [|n IH]; [lia|]. rewrite S_succ. destruct n as [|n]; [unfold sumn; cbn; lra|]. specialize (IH ltac:(lia)). pose proof (Hf (S n)). lra. }
    unfold up. eapply Rle_trans; [|apply G; [lia|intros; apply Rmax_r]]. cbn. rewrite Rmax_left; lra. }
  destruct (C58_value x' w (w - 1) ltac:(lia) ltac:(lia)) as (out' & E' & _ & _).
  exists (map Fin x), w, out, out'. eexists. split; [rewrite map_length; lia|]. split; [exact E|].
  assert (El : last_rows w w (map Fin x) = map Fin x'). { unfold last_rows. rewrite firstn_all2 by (rewrite map_length; lia). replace (S w - w)%nat with 1%nat by lia. reflexivity. }
  rewrite El. split; [exact E'|]. split; [apply V2; lra|]. split; [apply Rmult_lt_0_compat; [lra|apply Rinv_0_lt_compat; lra]|].
  destruct (C58_extremes x' w (w - 1) out' ltac:(lia) ltac:(lia) ltac:(lia) E') as (_ & X & _).
  assert (Lo : length out' = w). { pose proof (proj1 (proj2 (proj2 (proj2 (proj2 (proj2 (proj2 (proj2 (proj2 (proj2 (proj2 (proj2 (C53_indicators (Z.of_nat w) 1 1 1 1 0 ltac:(lia)))))))))))))) as C. destruct (C _ _ E') as [L _]. rewrite map_length in L. lia. }
  rewrite last_nth', Lo. apply X.
  - intros j Hj. replace (S (w - 1) - w + j)%nat with j by lia. destruct j as [|j]; cbn [change]; [lra|]. rewrite N0 by lia. destruct j as [|j]; [unfold x'; cbn [nth]; lra|rewrite N0 by lia; lra].
  - exists 1%nat. split; [lia|]. replace (S (w - 1) - w + 1)%nat with 1%nat by lia. cbn [change]. rewrite N0 by lia. unfold x'. cbn [nth]. lra.
Qed.
Print Assumptions C121_rsi_short_refuted.

(** ** Concrete cases *)
(** the moving average over three rows from a buffer of three rows *)
Example C121_indicators_ex : exists full buf, rolling_mean [Fin 7; Fin 1; Fin 2; Fin 6; Fin 4] 3 = Ok full /\ rolling_mean (last_rows 3 3 [Fin 7; Fin 1; Fin 2; Fin 6; Fin 4]) 3 = Ok buf /\ last buf NaN = nth 3 full NaN /\ last buf NaN = Fin 3.
Proof.
  destruct (C121_indicators 3 ltac:(lia)) as (N & _). change (Z.of_nat 3) with 3%Z in N.
  destruct (N [Fin 7; Fin 1; Fin 2; Fin 6; Fin 4] _ 3%nat eq_refl ltac:(cbn; lia)) as (o & E & V). eexists _, o. split; [reflexivity|]. split; [exact E|]. split; [exact V|].
  unfold last_rows in E. cbn in E. injection E as <-. cbn. change (Pos.to_nat 3) with 3%nat. cbn. unfold agg_mean, nmean, ndiv, nofnat. cbn. unfold reqb. destruct (Req_EM_T _ _); [lra|]. f_equal. lra.
Qed.
(** a bar spread over two rows needs three *)
Example C121_micro_ex : exists full buf, let c := [Fin 5; Fin 1; Fin 2; Fin 4; Fin 3] in roll_measure c 2 = Ok full /\ roll_measure (last_rows 4 4 c) 2 = Ok buf /\ last buf NaN = nth 4 full NaN.
Proof.
  destruct (C121_micro 2 false ltac:(lia)) as (_ & _ & _ & _ & _ & _ & _ & N & _). change (Z.of_nat 2) with 2%Z in N.
  destruct (N [Fin 5; Fin 1; Fin 2; Fin 4; Fin 3] _ 4%nat eq_refl ltac:(cbn; lia)) as (o & E & V). eexists _, o. split; [reflexivity|]. split; [exact E|exact V].
Qed.
Example C121_amihud_ex : exists full buf, let c := [Fin 5; Fin 1; Fin 2; Fin 4; Fin 3] in let v := [Fin 9; Fin 8; NaN; Fin 7; Fin 6] in amihud_lambda c v 1 = Ok full /\ amihud_lambda (last_rows 2 4 c) (last_rows 2 4 v) 1 = Ok buf /\ last buf NaN = nth 4 full NaN.
Proof.
  destruct (C121_amihud 1 [Fin 5; Fin 1; Fin 2; Fin 4; Fin 3] [Fin 9; Fin 8; NaN; Fin 7; Fin 6] _ 4%nat ltac:(lia) ltac:(intros p [<-|[<-|[<-|[<-|[<-|[]]]]]]; discriminate) eq_refl eq_refl ltac:(cbn; lia)) as (o & E & V).
  eexists _, o. split; [reflexivity|]. split; [exact E|exact V].
Qed.
(** span 3, values up to 8, ten rows: off by at most 32 / 1024 *)
Example C121_ewm_ex : forall ts i out, (i < length ts)%nat -> (forall j, (j < length ts)%nat -> exists x, nth j ts NaN = Fin x /\ -8 <= x <= 8) -> ewm_mean ts 3 = Ok out ->
  exists out' m m', ewm_mean (last_rows 10 i ts) 3 = Ok out' /\ nth i out NaN = Fin m /\ last out' NaN = Fin m' /\ Rabs (m - m') <= 1 / 32.
Proof.
  intros ts i out Hi B E. destruct (B i Hi) as (x & Ex & _).
  destruct (C121_ewm ts 3 10 8 i x out ltac:(lra) ltac:(lia) Hi Ex) as (o & m & m' & E1 & E2 & E3 & D); auto.
  - intros j y Hj Ey. destruct (B j ltac:(lia)) as (z & Ez & Bz). rewrite Ey in Ez. injection Ez as ->. apply Rabs_le. lra.
  - exists o, m, m'. repeat split; auto. eapply Rle_trans; [exact D|]. cbn. lra.
Qed.
Example C121_smallest_ex : ~ needs1 19 (fun ts => rolling_mean ts 20) /\ needs1 20 (fun ts => rolling_mean ts 20) /\ ~ needs1 20 (fun ts => Ok (rolling_mom ts 20)).
Proof.
  destruct (C121_smallest 20 19 ltac:(lia)) as (A & _). destruct (C121_smallest 20 20 ltac:(lia)) as (B & _ & _ & D). change (Z.of_nat 20) with 20%Z in *.
  split; [|split]; [intros H; apply A in H; lia|apply B; lia|intros H; apply D in H; lia].
Qed.
