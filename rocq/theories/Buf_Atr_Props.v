(** The last rows, the average true range and the Keltner channels (C121). *)
From Coq Require Import Reals Lra Psatz ZArith List Arith Bool Lia.
From Verif Require Import Base Num Sums Feat_Ops Feat_Spec Feat_Proofs Ewm_Proofs Feat_Model Feat_Causal_Props Feat_Avg_Props Feat_Band_Props Feat_More_Props Buf_Proofs Buf_Props Buf_Macd_Props Buf_Signal_Props.
Import ListNotations.
Open Scope R_scope.

Lemma len_true_range : forall h l c, length (true_range h l c) = Nat.max (length h) (Nat.max (length l) (length c)).
Proof. intros h l c. rewrite true_range_at, map_length, seq_length. reflexivity. Qed.
Lemma atr_ewm : forall h l c (w : Z), (1 <= w)%Z -> average_true_range h l c w = ewm_mean (true_range h l c) (2 * IZR w - 1) /\ 1 <= 2 * IZR w - 1 /\ 2 / (2 * IZR w - 1 + 1) = 1 / IZR w.
Proof.
  intros h l c w Hw. assert (P : 1 <= IZR w) by (apply (IZR_le 1); exact Hw). assert (Q : 2 / (2 * IZR w - 1 + 1) = 1 / IZR w) by (field; lra). split; [|split; [lra|exact Q]].
  unfold average_true_range, ewm_mean, ewm_alpha, ewm_span. destruct (Z.eqb_spec w 0); [lia|]. rewrite Q. unfold rltb, rleb. destruct (Rlt_dec 0 (1 / IZR w)) as [|N]; [|exfalso; apply N, Rdiv_lt_0_compat; lra].
  destruct (Rle_dec (1 / IZR w) 1) as [|N]; [|exfalso; apply N; apply (Rmult_le_reg_r (IZR w)); [lra|]; unfold Rdiv; rewrite Rmult_assoc, Rinv_l by lra; lra]. destruct (Rlt_dec (2 * IZR w - 1) 1); [lra|]. reflexivity.
Qed.
Definition bar (h l c : R) : R := Rmax (Rmax (h - l) (Rabs (h - c))) (Rabs (l - c)).
Lemma bar_range : forall h l c lo hi, lo <= l -> l <= h -> h <= hi -> lo <= c <= hi -> 0 <= bar h l c <= hi - lo /\ h - l <= bar h l c.
Proof.
  intros h l c lo hi H1 H2 H3 H4. unfold bar. pose proof (Rmax_l (Rmax (h - l) (Rabs (h - c))) (Rabs (l - c))) as A. pose proof (Rmax_l (h - l) (Rabs (h - c))) as B. split; [split; [lra|]|lra].
  apply Rmax_lub; [apply Rmax_lub; [lra|]|]; apply Rabs_le; lra.
Qed.
Lemma nth_last_rows : forall k i xs l, (i < length xs)%nat -> (l < S i - (S i - k))%nat -> nth l (last_rows k i (map Fin xs)) NaN = Fin (nth (S i - k + l) xs 0).
Proof. intros k i xs l Hi Hl. unfold last_rows. rewrite nth_skipn', nth_first by lia. apply nth_fin. lia. Qed.
Lemma len_last_rows : forall k i (x : list num), (i < length x)%nat -> length (last_rows k i x) = (S i - (S i - k))%nat.
Proof. intros k i x Hi. unfold last_rows. rewrite skipn_length, firstn_length. lia. Qed.

(** The average true range from the last k bars, for prices between lo and hi. *)
Theorem C121_atr : forall hs ls cs (w : Z) k i lo hi out, (1 <= w)%Z -> (1 <= k)%nat -> length ls = length hs -> length cs = length hs -> (i < length hs)%nat ->
  (forall j, (j <= i)%nat -> lo <= nth j ls 0 /\ nth j ls 0 <= nth j hs 0 /\ nth j hs 0 <= hi /\ lo <= nth j cs 0 <= hi) ->
  average_true_range (map Fin hs) (map Fin ls) (map Fin cs) w = Ok out ->
  exists out' m m', average_true_range (last_rows k i (map Fin hs)) (last_rows k i (map Fin ls)) (last_rows k i (map Fin cs)) w = Ok out' /\
    nth i out NaN = Fin m /\ last out' NaN = Fin m' /\ Rabs (m - m') <= (hi - lo) * (2 * IZR w * (1 - 1 / IZR w) ^ k + (1 - 1 / IZR w) ^ (k - 1)).
Proof.
  intros hs ls cs w k i lo hi out Hw Hk Hl Hc Hi B E. set (H := map Fin hs) in *. set (L := map Fin ls) in *. set (C := map Fin cs) in *.
  assert (LH : length H = length hs) by apply map_length. assert (LL : length L = length hs) by (unfold L; rewrite map_length; exact Hl). assert (LC : length C = length hs) by (unfold C; rewrite map_length; exact Hc).
  destruct (atr_ewm H L C w Hw) as (E1 & Hs & Ea). destruct (atr_ewm (last_rows k i H) (last_rows k i L) (last_rows k i C) w Hw) as (E2 & _ & _). rewrite E1 in E. set (span := 2 * IZR w - 1) in *. pose proof (alpha_span span Hs) as Ha. rewrite Ea in Ha.
  set (q := 1 - 1 / IZR w) in *. set (TR := true_range H L C) in *. set (TB := true_range (last_rows k i H) (last_rows k i L) (last_rows k i C)) in *. set (d := (S i - k)%nat). set (n := (S i - d)%nat).
  assert (LT : length TR = length hs) by (unfold TR; rewrite len_true_range, LH, LL, LC; lia). assert (LB : length TB = n) by (unfold TB; rewrite len_true_range, !len_last_rows by lia; unfold n, d; lia).
  set (tv := fun j => match j with O => nth 0 hs 0 - nth 0 ls 0 | S p => bar (nth j hs 0) (nth j ls 0) (nth p cs 0) end).
  assert (NT : forall j, (j <= i)%nat -> nth j TR NaN = Fin (tv j)).
  { intros [|j] Hj; [apply C60_first_bar; apply nth_fin; lia|]. apply C60_true_range; [apply nth_fin; lia|apply nth_fin; lia|apply nth_fin; lia|lia]. }
  assert (BT : forall j, (j <= i)%nat -> 0 <= tv j <= hi - lo).
  { intros [|j] Hj; [destruct (B 0%nat Hj) as (? & ? & ? & _); cbn [tv]; lra|]. destruct (B (S j) Hj) as (? & ? & ? & _). destruct (B j ltac:(lia)) as (_ & _ & _ & ?). apply (bar_range (nth (S j) hs 0) (nth (S j) ls 0) (nth j cs 0) lo hi); lra. }
  set (bv := fun l => match l with O => nth d hs 0 - nth d ls 0 | S p => bar (nth (d + l) hs 0) (nth (d + l) ls 0) (nth (d + p) cs 0) end).
  assert (NB : forall l, (l < n)%nat -> nth l TB NaN = Fin (bv l)).
  { intros [|l] Hn.
    - apply C60_first_bar; (etransitivity; [apply nth_last_rows; unfold n, d in *; lia|]); fold d; rewrite Nat.add_0_r; reflexivity.
    - apply C60_true_range; [apply nth_last_rows; unfold n, d in *; lia|apply nth_last_rows; unfold n, d in *; lia|apply nth_last_rows; unfold n, d in *; lia|]. rewrite len_last_rows by lia. fold d. fold n. exact Hn. }
  assert (Same : forall l, (1 <= l)%nat -> (l < n)%nat -> bv l = tv (d + l)%nat).
  { intros [|l] H1 Hn; [lia|]. unfold bv, tv. replace (d + S l)%nat with (S (d + l)) by lia. reflexivity. }
  assert (First : Rabs (tv d - bv 0%nat) <= hi - lo /\ (d = 0%nat -> tv d - bv 0%nat = 0)).
  { assert (D : (d <= i)%nat) by (unfold d; lia). pose proof (BT d D) as T. destruct (B d D) as (b1 & b2 & b3 & _). cbn [bv]. split.
    - apply Rabs_le. lra.
    - intros D0. rewrite D0. cbn [tv]. lra. }
  destruct (C121_ewm TR span k (hi - lo) i (tv i) out Hs Hk ltac:(lia) (NT i (le_n i)) ltac:(intros j y Hj Ey; rewrite NT in Ey by exact Hj; injection Ey as <-; rewrite Rabs_right by (apply Rle_ge, BT; exact Hj); apply BT; exact Hj) E) as (o2 & m & m2 & Eo2 & Em & Em2 & Bm).
  assert (Hn1 : (1 <= n)%nat) by (unfold n, d; lia). assert (L1 : length (last_rows k i TR) = n) by (rewrite len_last_rows by lia; reflexivity).
  assert (N1 : forall l, (l < n)%nat -> nth l (last_rows k i TR) NaN = Fin (tv (d + l)%nat)) by (intros l Hl0; unfold last_rows; fold d; rewrite nth_skipn', nth_first by (unfold n, d in *; lia); apply NT; unfold n, d in *; lia).
  destruct (C56_weighted_mean (last_rows k i TR) span Hs) as (o3 & Eo3 & Lo3 & Row1). assert (o3 = o2) by congruence. subst o3. destruct (C56_weighted_mean TB span Hs) as (out' & Eo4 & Lo4 & Row2). cbv zeta in Row1, Row2. rewrite Ea in Row1, Row2. rewrite Ea in Bm. fold q in Bm.
  destruct (proj1 (Row1 (n - 1)%nat ltac:(lia)) _ (N1 (n - 1)%nat ltac:(lia))) as [W1 X1]. destruct (proj1 (Row2 (n - 1)%nat ltac:(lia)) _ (NB (n - 1)%nat ltac:(lia))) as [W2 X2].
  set (w1 := wsum (1 / IZR w) (fun _ => 1) (last_rows k i TR) (n - 1)) in *. set (w2 := wsum (1 / IZR w) (fun _ => 1) TB (n - 1)) in *. set (s1 := wsum (1 / IZR w) (fun x => x) (last_rows k i TR) (n - 1)) in *. set (s2 := wsum (1 / IZR w) (fun x => x) TB (n - 1)) in *.
  assert (EW : w1 = w2) by (unfold w1, w2, wsum; apply S_ext; intros l Hl0; rewrite N1, NB by lia; reflexivity).
  assert (Q0 : 0 <= q <= 1) by (unfold q; lra). assert (M0 : 0 <= hi - lo) by (pose proof (BT 0%nat ltac:(lia)); lra).
  assert (Sd : s1 - s2 = q ^ (n - 1) * (tv d - bv 0%nat)).
  { unfold s1, s2, wsum. rewrite sum_minus. rewrite (S_ext _ _ (fun l => match l with O => q ^ (n - 1) * (tv d - bv 0%nat) | S _ => 0 end)).
    - replace (S (n - 1)) with (S (n - 1)) by reflexivity. generalize (n - 1)%nat at 1. intros p. generalize (q ^ (n - 1) * (tv d - bv 0%nat)). intros z. induction p as [|p IH]; [unfold sumn; cbn; ring|]. rewrite S_succ, IH. ring.
    - intros l Hl0. rewrite N1, NB by lia. cbn [on_present]. fold q. destruct l as [|l]; [rewrite Nat.sub_0_r, Nat.add_0_r; ring|]. rewrite Same by lia. ring. }
  assert (D1 : Rabs (s1 - s2) <= (hi - lo) * q ^ (k - 1)).
  { rewrite Sd. destruct First as [F0 F1]. destruct (Nat.eq_dec d 0) as [Z|Z].
    - rewrite (F1 Z), Rmult_0_r, Rabs_R0. apply Rmult_le_pos; [exact M0|apply pow_le; lra].
    - replace n with k by (unfold n, d in *; lia). rewrite Rabs_mult, (Rabs_right (q ^ (k - 1))) by (apply Rle_ge, pow_le; lra). rewrite (Rmult_comm (hi - lo)). apply Rmult_le_compat_l; [apply pow_le; lra|exact F0]. }
  assert (Em2' : m2 = s1 / w1) by (rewrite last_nth', Lo3, L1, X1 in Em2; congruence).
  exists out', m, (s2 / w2). split; [rewrite E2; exact Eo4|]. split; [exact Em|]. split; [rewrite last_nth', Lo4, LB; exact X2|].
  assert (D2 : Rabs (m2 - s2 / w2) <= (hi - lo) * q ^ (k - 1)).
  { rewrite Em2', EW. replace (s1 / w2 - s2 / w2) with ((s1 - s2) * / w2) by (field; lra). rewrite Rabs_mult. assert (IW : 0 < / w2 <= 1) by (split; [apply Rinv_0_lt_compat; lra|rewrite <- Rinv_1; apply Rinv_le_contravar; lra]). rewrite (Rabs_right (/ w2)) by lra. pose proof (Rabs_pos (s1 - s2)). nra. }
  replace (m - s2 / w2) with ((m - m2) + (m2 - s2 / w2)) by ring. eapply Rle_trans; [apply Rabs_triang|]. replace (span + 1) with (2 * IZR w) in Bm by (unfold span; ring). lra.
Qed.
Print Assumptions C121_atr.
(** a window of 14 bars on prices between 0 and 100: 300 bars leave an error below 1/1000 *)
Example C121_atr_example : (100 - 0) * (2 * 14 * (1 - 1 / 14) ^ 300 + (1 - 1 / 14) ^ (300 - 1)) < 1 / 1000.
Proof.
  replace (300 - 1)%nat with 299%nat by reflexivity. change 300%nat with (S 299). rewrite <- tech_pow_Rmult. assert (B : (1 - 1 / 14) ^ 299 <= (1 / 2) ^ 29).
  { replace 299%nat with (10 * 29 + 9)%nat by reflexivity. rewrite pow_add, pow_mult. assert (X : ((1 - 1 / 14) ^ 10) ^ 29 <= (1 / 2) ^ 29) by (apply pow_incr; split; [apply pow_le; lra|lra]). assert (0 <= ((1 - 1 / 14) ^ 10) ^ 29) by (apply pow_le, pow_le; lra). assert (Y : 0 <= (1 - 1 / 14) ^ 9 <= 1) by (split; [apply pow_le; lra|lra]). nra. }
  assert (D : (1 / 2) ^ 29 < 1 / 500000000) by (cbn [pow]; lra). set (z := (1 - 1 / 14) ^ 299) in *. lra.
Qed.

(** The Keltner channels from the last k bars: the errors of the average and of the range add up. *)
Theorem C121_keltner : forall view hs ls cs (w : Z) span c k i lo hi M b, In view [upper; lower] -> (1 <= w)%Z -> 1 <= span -> (1 <= k)%nat -> length ls = length hs -> length cs = length hs -> (i < length hs)%nat ->
  (forall j, (j <= i)%nat -> lo <= nth j ls 0 /\ nth j ls 0 <= nth j hs 0 /\ nth j hs 0 <= hi /\ lo <= nth j cs 0 <= hi) -> (forall j, (j <= i)%nat -> Rabs (nth j cs 0) <= M) ->
  KeltnerBands (map Fin hs) (map Fin ls) (map Fin cs) w span (Fin c) = Ok b ->
  exists b' m m', KeltnerBands (last_rows k i (map Fin hs)) (last_rows k i (map Fin ls)) (last_rows k i (map Fin cs)) w span (Fin c) = Ok b' /\ nth i (view b) NaN = Fin m /\ last (view b') NaN = Fin m' /\
    Rabs (m - m') <= M * (span + 1) * (1 - 2 / (span + 1)) ^ k + Rabs c * ((hi - lo) * (2 * IZR w * (1 - 1 / IZR w) ^ k + (1 - 1 / IZR w) ^ (k - 1))).
Proof.
  intros view hs ls cs w span c k i lo hi M b Hv Hw Hs Hk Hl Hc Hi B BM E. unfold KeltnerBands in E. destruct (ewm_mean (map Fin cs) span) as [mean|] eqn:E1; [|discriminate]. cbn [bind] in E. destruct (average_true_range (map Fin hs) (map Fin ls) (map Fin cs) w) as [atr|] eqn:E2; [|discriminate]. cbn [bind] in E. injection E as <-.
  destruct (C121_ewm (map Fin cs) span k M i (nth i cs 0) mean Hs Hk ltac:(rewrite map_length; lia) (nth_fin cs i ltac:(lia)) ltac:(intros j y Hj Ey; rewrite nth_fin in Ey by lia; injection Ey as <-; apply BM; exact Hj) E1) as (mean' & m & m' & F1 & G1 & K1 & D1).
  destruct (C121_atr hs ls cs w k i lo hi atr Hw Hk Hl Hc Hi B E2) as (atr' & a & a' & F2 & G2 & K2 & D2).
  assert (Lm : length mean' = (S i - (S i - k))%nat). { destruct (C56_weighted_mean (last_rows k i (map Fin cs)) span Hs) as (o & Eo & Lo & _). assert (o = mean') by congruence. subst o. rewrite Lo. apply len_last_rows. rewrite map_length. lia. }
  assert (La : length atr' = (S i - (S i - k))%nat). { destruct (atr_ewm (last_rows k i (map Fin hs)) (last_rows k i (map Fin ls)) (last_rows k i (map Fin cs)) w Hw) as (Q & Hs' & _). rewrite Q in F2. destruct (C56_weighted_mean (true_range (last_rows k i (map Fin hs)) (last_rows k i (map Fin ls)) (last_rows k i (map Fin cs))) _ Hs') as (o & Eo & Lo & _). rewrite F2 in Eo. injection Eo as <-. rewrite Lo, len_true_range, !len_last_rows by (rewrite map_length; lia). lia. }
  rewrite last_nth', Lm in K1. rewrite last_nth', La in K2.
  set (p := (S i - (S i - k) - 1)%nat) in *. set (err := (hi - lo) * (2 * IZR w * (1 - 1 / IZR w) ^ k + (1 - 1 / IZR w) ^ (k - 1))) in *.
  assert (NM : forall l j y, nth j l NaN = Fin y -> nth j (map (fun s => nmul s (Fin c)) l) NaN = Fin (y * c)) by (intros l j y Ey; rewrite nth_map_nan by reflexivity; rewrite Ey; reflexivity).
  assert (DC : Rabs ((a - a') * c) <= Rabs c * err) by (rewrite Rabs_mult, (Rmult_comm (Rabs (a - a'))); apply Rmult_le_compat_l; [apply Rabs_pos|exact D2]).
  exists (mkBands (last_rows k i (map Fin cs)) mean' atr' (Fin c)). cbn [In] in Hv. destruct Hv as [<-|[<-|[]]].
  - exists (m + a * c), (m' + a' * c). split; [unfold KeltnerBands; rewrite F1; cbn [bind]; rewrite F2; reflexivity|]. unfold upper. cbn [b_mean b_std b_mult]. split; [rewrite nth_lift2 by reflexivity; rewrite G1, (NM _ _ _ G2); reflexivity|]. split.
    + rewrite last_nth', len_lift2, map_length, Lm, La, Nat.max_id. rewrite nth_lift2 by reflexivity. fold p. rewrite K1, (NM _ _ _ K2). reflexivity.
    + replace (m + a * c - (m' + a' * c)) with ((m - m') + (a - a') * c) by ring. eapply Rle_trans; [apply Rabs_triang|]. lra.
  - exists (m - a * c), (m' - a' * c). split; [unfold KeltnerBands; rewrite F1; cbn [bind]; rewrite F2; reflexivity|]. unfold lower. cbn [b_mean b_std b_mult]. split; [rewrite nth_lift2 by reflexivity; rewrite G1, (NM _ _ _ G2); reflexivity|]. split.
    + rewrite last_nth', len_lift2, map_length, Lm, La, Nat.max_id. rewrite nth_lift2 by reflexivity. fold p. rewrite K1, (NM _ _ _ K2). reflexivity.
    + replace (m - a * c - (m' - a' * c)) with ((m - m') + - ((a - a') * c)) by ring. eapply Rle_trans; [apply Rabs_triang|]. rewrite Rabs_Ropp. lra.
Qed.
Print Assumptions C121_keltner.
(** three bars that meet the hypotheses *)
Example C121_keltner_example : exists b, KeltnerBands (map Fin [5; 6; 7]) (map Fin [4; 4; 5]) (map Fin [4; 5; 6]) 10 20 (Fin 2) = Ok b /\
  forall j, (j <= 2)%nat -> 4 <= nth j [4; 4; 5] 0 /\ nth j [4; 4; 5] 0 <= nth j [5; 6; 7] 0 /\ nth j [5; 6; 7] 0 <= 7 /\ 4 <= nth j [4; 5; 6] 0 <= 7.
Proof.
  destruct (C56_weighted_mean (map Fin [4; 5; 6]) 20 ltac:(lra)) as (m & E & _). destruct (atr_ewm (map Fin [5; 6; 7]) (map Fin [4; 4; 5]) (map Fin [4; 5; 6]) 10 ltac:(lia)) as (Q & Hs & _). destruct (C56_weighted_mean (true_range (map Fin [5; 6; 7]) (map Fin [4; 4; 5]) (map Fin [4; 5; 6])) _ Hs) as (a & E' & _).
  eexists. split; [unfold KeltnerBands; rewrite E; cbn [bind]; rewrite Q, E'; reflexivity|]. intros [|[|[|j]]] Hj; try lia; cbn [nth]; lra.
Qed.
