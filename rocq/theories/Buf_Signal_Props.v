(** The last rows and the MACD histogram (C121). *)
From Coq Require Import Reals Lra Psatz ZArith List Arith Bool Lia.
From Verif Require Import Base Num Sums Feat_Ops Feat_Spec Feat_Proofs Ewm_Proofs Feat_Model Feat_Causal_Props Feat_Avg_Props Feat_Band_Props Feat_More_Props Buf_Proofs Buf_Props Buf_Macd_Props.
Import ListNotations.
Open Scope R_scope.

Lemma sum_le : forall n f c, (forall j, (j < n)%nat -> Rabs (f j) <= c) -> Rabs (sumn n f) <= INR n * c.
Proof.
  induction n as [|n IH]; intros f c H.
  - unfold sumn. cbn. rewrite Rabs_R0. lra.
  - rewrite S_succ, S_INR. eapply Rle_trans; [apply Rabs_triang|]. pose proof (IH f c (fun j Hj => H j ltac:(lia))). pose proof (H n ltac:(lia)). lra.
Qed.
Lemma sum_minus : forall n f g, sumn n f - sumn n g = sumn n (fun j => f j - g j).
Proof. induction n as [|n IH]; intros f g; [unfold sumn; cbn; ring|]. rewrite !S_succ, <- IH. ring. Qed.
Lemma nth_fin : forall xs j, (j < length xs)%nat -> nth j (map Fin xs) NaN = Fin (nth j xs 0).
Proof. intros xs j H. rewrite (nth_indep _ NaN (Fin 0)) by (rewrite map_length; exact H). apply map_nth. Qed.
Lemma causal_macd : forall fast slow, causal1 (fun ts => macd ts fast slow).
Proof. intros fast slow. exact (proj1 (proj2 (proj2 (proj2 (proj2 (proj2 (proj2 (proj2 (proj2 (proj2 (C53_indicators 0 1 fast slow 1 0 ltac:(lia)))))))))))). Qed.
Lemma causal_signal : forall fast slow signal, causal1 (fun ts => macd_signal ts fast slow signal).
Proof. intros fast slow signal. exact (proj1 (proj2 (proj2 (proj2 (proj2 (proj2 (proj2 (proj2 (proj2 (proj2 (proj2 (C53_indicators 0 1 fast slow signal 0 ltac:(lia))))))))))))). Qed.

(** a row of the MACD line of numbers up to M *)
Lemma macd_size : forall xs fast slow line M j, 1 <= fast -> 1 <= slow -> macd (map Fin xs) fast slow = Ok line -> (j < length xs)%nat ->
  (forall l, (l <= j)%nat -> Rabs (nth l xs 0) <= M) -> exists m, nth j line NaN = Fin m /\ Rabs m <= 2 * M.
Proof.
  intros xs fast slow line M j Hf Hs E Hj B. destruct (C59_difference (map Fin xs) fast slow Hf Hs) as (line0 & ef & es & E0 & E1 & E2 & V). assert (line0 = line) by congruence. subst line0.
  assert (B' : forall l x, (l <= j)%nat -> nth l (map Fin xs) NaN = Fin x -> - M <= x <= M).
  { intros l x Hl Ex. rewrite nth_fin in Ex by lia. injection Ex as <-. pose proof (B l Hl) as H. split; [pose proof (Rle_abs (- nth l xs 0)); rewrite Rabs_Ropp in *; lra|pose proof (Rle_abs (nth l xs 0)); lra]. }
  destruct (C56_bounds _ _ _ j (- M) M E1 ltac:(rewrite map_length; exact Hj) B') as [(? & ? & _ & _ & m1 & N1 & I1)|[N _]]; [|exfalso; exact (N j _ (le_n j) (nth_fin xs j Hj))].
  destruct (C56_bounds _ _ _ j (- M) M E2 ltac:(rewrite map_length; exact Hj) B') as [(? & ? & _ & _ & m2 & N2 & I2)|[N _]]; [|exfalso; exact (N j _ (le_n j) (nth_fin xs j Hj))].
  exists (m1 - m2). rewrite V, N1, N2. split; [reflexivity|]. apply Rabs_le. lra.
Qed.

(** The MACD histogram (macd_signal) computed from the last k rows: Q is the largest of the three forgetting factors 1 - 2/(span + 1). *)
Theorem C121_macd_signal : forall xs fast slow signal Q k M i out, 1 <= fast -> 1 <= slow -> 1 <= signal -> (1 <= k)%nat -> (i < length xs)%nat ->
  (forall j, (j <= i)%nat -> Rabs (nth j xs 0) <= M) -> 1 - 2 / (fast + 1) <= Q -> 1 - 2 / (slow + 1) <= Q -> 1 - 2 / (signal + 1) <= Q ->
  macd_signal (map Fin xs) fast slow signal = Ok out ->
  exists out' h h', macd_signal (last_rows k i (map Fin xs)) fast slow signal = Ok out' /\ nth i out NaN = Fin h /\ last out' NaN = Fin h' /\
    Rabs (h - h') <= M * ((INR k + 1) * (fast + slow + 2) + 2 * (signal + 1)) * Q ^ k.
Proof.
  intros xs fast slow signal Q k M i out Hf Hs Hg Hk Hi B Qf Qs Qg E. set (T := map Fin xs) in *.
  pose proof (alpha_span fast Hf) as Af. pose proof (alpha_span slow Hs) as As. pose proof (alpha_span signal Hg) as Ag.
  assert (M0 : 0 <= M) by (eapply Rle_trans; [apply Rabs_pos|exact (B 0%nat ltac:(lia))]). assert (Q0 : 0 <= Q) by lra.
  assert (LT : length T = length xs) by apply map_length.
  destruct (C59_signal_is_histogram T fast slow signal Hf Hs Hg) as (o & line & ema & E1 & E2 & E3 & V). assert (o = out) by congruence. subst o.
  destruct (C59_signal_is_histogram (last_rows k i T) fast slow signal Hf Hs Hg) as (out' & line' & ema' & F1 & F2 & F3 & V').
  destruct (causal_macd fast slow T line E2) as [LL CL]. destruct (causal_macd fast slow _ line' F2) as [LL' CL']. destruct (causal_signal fast slow signal T out E1) as [LO CO]. destruct (causal_signal fast slow signal _ out' F1) as [LO' _].
  assert (Size : forall j, (j <= i)%nat -> exists m, nth j line NaN = Fin m /\ Rabs m <= 2 * M) by (intros j Hj; apply (macd_size xs fast slow line M j Hf Hs E2 ltac:(lia)); intros l Hl; apply B; lia).
  destruct (Size i (le_n i)) as (mi & Emi & Bmi).
  assert (Emm : exists e, nth i ema NaN = Fin e). { destruct (C56_weighted_mean line signal Hg) as (o & Eo & _ & Row). assert (o = ema) by congruence. subst o. destruct (proj1 (Row i ltac:(lia)) mi Emi) as [_ W]. eexists. exact W. }
  destruct Emm as [e Ee].
  destruct (Nat.lt_ge_cases (S i) k) as [C|C].
  { assert (X : last_rows k i T = firstn (S i) T) by (unfold last_rows; replace (S i - k)%nat with 0%nat by lia; reflexivity).
    assert (out' = firstn (S i) out) by (rewrite X in F1; rewrite CO in F1; congruence). subst out'. exists (firstn (S i) out), (mi - e), (mi - e). split; [exact F1|]. split; [rewrite V, Emi, Ee; reflexivity|]. split.
    - rewrite last_nth', firstn_length, LO, LT. replace (Nat.min (S i) (length xs) - 1)%nat with i by lia. rewrite nth_first by lia. rewrite V, Emi, Ee. reflexivity.
    - rewrite Rminus_diag_eq by reflexivity. rewrite Rabs_R0. apply Rmult_le_pos; [apply Rmult_le_pos; [exact M0|]|apply pow_le; exact Q0]. pose proof (pos_INR k). nra. }
  set (d := (S i - k)%nat) in *. assert (Lb : length (last_rows k i T) = k) by (unfold last_rows; rewrite skipn_length, firstn_length, LT; lia).
  set (cf := fun l => M * (fast + 1) * (1 - 2 / (fast + 1)) ^ S l + M * (slow + 1) * (1 - 2 / (slow + 1)) ^ S l).
  assert (Row : forall l, (l < k)%nat -> exists m m', nth (d + l) line NaN = Fin m /\ nth l line' NaN = Fin m' /\ Rabs (m - m') <= cf l).
  { intros l Hl. destruct (C121_macd T fast slow (S l) M (d + l) (nth (d + l) xs 0) line Hf Hs ltac:(lia) ltac:(lia) (nth_fin xs (d + l) ltac:(lia)) ltac:(intros j y Hj Ey; unfold T in Ey; rewrite nth_fin in Ey by lia; injection Ey as <-; apply B; lia) E2) as (o & m & m' & Eo & Em & Em' & Bm).
    exists m, m'. split; [exact Em|]. split; [|exact Bm].
    assert (X : last_rows (S l) (d + l) T = firstn (S l) (last_rows k i T)).
    { unfold last_rows. replace (S (d + l) - S l)%nat with d by lia. fold d. rewrite firstn_skipn_comm. rewrite firstn_firstn. replace (Nat.min (d + S l) (S i)) with (S (d + l)) by lia. reflexivity. }
    rewrite X, (CL' (S l)) in Eo. assert (o = firstn (S l) line') by congruence. subst o. rewrite <- Em', last_nth', firstn_length, LL', Lb. replace (Nat.min (S l) k - 1)%nat with l by lia. rewrite nth_first by lia. reflexivity. }
  destruct (C121_ewm line signal k (2 * M) i mi ema Hg Hk ltac:(lia) Emi ltac:(intros j y Hj Ey; destruct (Size j Hj) as (m & Em & Bm); assert (y = m) by congruence; subst y; exact Bm) E3) as (o2 & e0 & e2 & Eo2 & Ee0 & Ee2 & Be). assert (e0 = e) by congruence. subst e0.
  assert (Ll1 : length (last_rows k i line) = k) by (unfold last_rows; rewrite skipn_length, firstn_length, LL, LT; lia).
  assert (N1 : forall l, (l < k)%nat -> nth l (last_rows k i line) NaN = nth (d + l) line NaN) by (intros l Hl; unfold last_rows; fold d; rewrite nth_skipn', nth_first by lia; reflexivity).
  destruct (C56_weighted_mean (last_rows k i line) signal Hg) as (o3 & Eo3 & Lo3 & Row1). assert (o3 = o2) by congruence. subst o3. destruct (C56_weighted_mean line' signal Hg) as (o4 & Eo4 & Lo4 & Row2). assert (o4 = ema') by congruence. subst o4. cbv zeta in Row1, Row2. set (a := 2 / (signal + 1)) in *.
  destruct (Row (k - 1)%nat ltac:(lia)) as (ml & ml' & Eml & Eml' & Bml). replace (d + (k - 1))%nat with i in Eml by lia. assert (ml = mi) by congruence. subst ml.
  destruct (proj1 (Row1 (k - 1)%nat ltac:(lia)) mi ltac:(rewrite N1 by lia; replace (d + (k - 1))%nat with i by lia; exact Emi)) as [W1 X1]. destruct (proj1 (Row2 (k - 1)%nat ltac:(lia)) ml' Eml') as [W2 X2].
  set (w1 := wsum a (fun _ => 1) (last_rows k i line) (k - 1)) in *. set (w2 := wsum a (fun _ => 1) line' (k - 1)) in *.
  assert (EW : w1 = w2). { unfold w1, w2, wsum. apply S_ext. intros l Hl. rewrite N1 by lia. destruct (Row l ltac:(lia)) as (m & m' & -> & -> & _). reflexivity. }
  set (s1 := wsum a (fun x => x) (last_rows k i line) (k - 1)) in *. set (s2 := wsum a (fun x => x) line' (k - 1)) in *.
  assert (P : forall q, 0 <= q <= Q -> forall l, (l < k)%nat -> 0 <= (1 - a) ^ (k - 1 - l) * q ^ S l <= Q ^ k).
  { intros q Hq l Hl. split; [apply Rmult_le_pos; apply pow_le; lra|]. replace k with ((k - 1 - l) + S l)%nat at 2 by lia. rewrite pow_add. apply Rmult_le_compat; try (apply pow_le; lra); apply pow_incr; lra. }
  assert (Sd : Rabs (s1 - s2) <= INR k * (M * (fast + slow + 2) * Q ^ k)).
  { unfold s1, s2, wsum. rewrite sum_minus. replace (S (k - 1)) with k by lia. apply sum_le. intros l Hl. rewrite N1 by lia. destruct (Row l Hl) as (m & m' & -> & -> & Bm). cbn [on_present].
    rewrite <- Rmult_minus_distr_l, Rabs_mult. rewrite (Rabs_right ((1 - a) ^ (k - 1 - l))) by (apply Rle_ge, pow_le; lra).
    eapply Rle_trans; [apply Rmult_le_compat_l; [apply pow_le; lra|exact Bm]|]. unfold cf. pose proof (P (1 - 2 / (fast + 1)) ltac:(lra) l Hl) as P1. pose proof (P (1 - 2 / (slow + 1)) ltac:(lra) l Hl) as P2.
    assert (0 <= M * (fast + 1)) by (apply Rmult_le_pos; lra). assert (0 <= M * (slow + 1)) by (apply Rmult_le_pos; lra). set (u := (1 - a) ^ (k - 1 - l)) in *. set (v1 := (1 - 2 / (fast + 1)) ^ S l) in *. set (v2 := (1 - 2 / (slow + 1)) ^ S l) in *.
    replace (u * (M * (fast + 1) * v1 + M * (slow + 1) * v2)) with (M * (fast + 1) * (u * v1) + M * (slow + 1) * (u * v2)) by ring. replace (M * (fast + slow + 2) * Q ^ k) with (M * (fast + 1) * Q ^ k + M * (slow + 1) * Q ^ k) by ring. apply Rplus_le_compat; apply Rmult_le_compat_l; try assumption; [apply P1|apply P2]. }
  assert (E2v : e2 = s1 / w1). { rewrite last_nth', Lo3, Ll1, X1 in Ee2. congruence. }
  exists out', (mi - e), (ml' - s2 / w2). split; [exact F1|]. split; [rewrite V, Emi, Ee; reflexivity|]. split; [rewrite last_nth', LO', Lb, V', Eml', X2; reflexivity|].
  assert (D2 : Rabs (s1 / w1 - s2 / w2) <= INR k * (M * (fast + slow + 2) * Q ^ k)).
  { rewrite EW. replace (s1 / w2 - s2 / w2) with ((s1 - s2) * / w2) by (field; lra). rewrite Rabs_mult. assert (IW : 0 < / w2 <= 1) by (split; [apply Rinv_0_lt_compat; lra|rewrite <- Rinv_1; apply Rinv_le_contravar; lra]). rewrite (Rabs_right (/ w2)) by lra.
    pose proof (Rabs_pos (s1 - s2)). nra. }
  assert (PQ : forall q, 0 <= q <= Q -> 0 <= q ^ k <= Q ^ k) by (intros q Hq; split; [apply pow_le; lra|apply pow_incr; lra]).
  assert (D1 : Rabs (mi - ml') <= M * (fast + slow + 2) * Q ^ k).
  { eapply Rle_trans; [exact Bml|]. unfold cf. replace (S (k - 1)) with k by lia. pose proof (PQ (1 - 2 / (fast + 1)) ltac:(lra)) as P1. pose proof (PQ (1 - 2 / (slow + 1)) ltac:(lra)) as P2. assert (0 <= M * (fast + 1)) by (apply Rmult_le_pos; lra). assert (0 <= M * (slow + 1)) by (apply Rmult_le_pos; lra).
    replace (M * (fast + slow + 2) * Q ^ k) with (M * (fast + 1) * Q ^ k + M * (slow + 1) * Q ^ k) by ring. apply Rplus_le_compat; apply Rmult_le_compat_l; try assumption; lra. }
  assert (D3 : Rabs (e - e2) <= 2 * M * (signal + 1) * Q ^ k).
  { eapply Rle_trans; [exact Be|]. apply Rmult_le_compat_l; [apply Rmult_le_pos; lra|]. apply PQ. unfold a in *. lra. }
  rewrite <- E2v in D2. replace (mi - e - (ml' - s2 / w2)) with ((mi - ml') + (- (e - e2) + - (e2 - s2 / w2))) by ring.
  eapply Rle_trans; [apply Rabs_triang|]. eapply Rle_trans; [apply Rplus_le_compat_l, Rabs_triang|]. rewrite !Rabs_Ropp.
  replace (M * ((INR k + 1) * (fast + slow + 2) + 2 * (signal + 1)) * Q ^ k) with (M * (fast + slow + 2) * Q ^ k + (2 * M * (signal + 1) * Q ^ k + INR k * (M * (fast + slow + 2) * Q ^ k))) by ring. lra.
Qed.
Print Assumptions C121_macd_signal.
(** the default spans 12, 26 and 9 on prices up to 100: 400 rows of history leave an error below 1/1000 *)
Example C121_macd_signal_example : 1 - 2 / (12 + 1) <= 25 / 27 /\ 1 - 2 / (26 + 1) <= 25 / 27 /\ 1 - 2 / (9 + 1) <= 25 / 27 /\ 100 * ((400 + 1) * (12 + 26 + 2) + 2 * (9 + 1)) * (25 / 27) ^ 400 < 1 / 1000.
Proof.
  split; [lra|]. split; [lra|]. split; [lra|].
  assert (B : (25 / 27) ^ 400 <= (1 / 2) ^ 40). { replace 400%nat with (10 * 40)%nat by reflexivity. rewrite pow_mult. apply pow_incr. split; [apply pow_le; lra|]. lra. }
  assert (D : (1 / 2) ^ 40 < 1 / 1000000000000) by (cbn [pow]; lra). lra.
Qed.
