(** The last rows and the exponentially weighted indicators MACD and RSI (C121). *)
From Coq Require Import Reals Lra Psatz ZArith List Arith Bool Lia.
From Verif Require Import Base Num Sums Feat_Ops Feat_Spec Feat_Proofs Ewm_Proofs Feat_Model Feat_Causal_Props Feat_Avg_Props Feat_Band_Props Feat_More_Props Buf_Proofs Buf_Props.
Import ListNotations.
Open Scope R_scope.

(** The MACD computed from the last k rows is off by at most the errors of its two averages. *)
Theorem C121_macd : forall ts fast slow k M i x out, 1 <= fast -> 1 <= slow -> (1 <= k)%nat -> (i < length ts)%nat -> nth i ts NaN = Fin x ->
  (forall j y, (j <= i)%nat -> nth j ts NaN = Fin y -> Rabs y <= M) -> macd ts fast slow = Ok out ->
  exists out' m m', macd (last_rows k i ts) fast slow = Ok out' /\ nth i out NaN = Fin m /\ last out' NaN = Fin m' /\
    Rabs (m - m') <= M * (fast + 1) * (1 - 2 / (fast + 1)) ^ k + M * (slow + 1) * (1 - 2 / (slow + 1)) ^ k.
Proof.
  intros ts fast slow k M i x out Hf Hs Hk Hi Ex B E.
  destruct (C59_difference ts fast slow Hf Hs) as (line & ef & es & E0 & E1 & E2 & V). assert (line = out) by congruence. subst line.
  destruct (C59_difference (last_rows k i ts) fast slow Hf Hs) as (line' & ef' & es' & E0' & E1' & E2' & V').
  destruct (C121_ewm ts fast k M i x ef Hf Hk Hi Ex B E1) as (o1 & m1 & m1' & F1 & G1 & H1 & K1). destruct (C121_ewm ts slow k M i x es Hs Hk Hi Ex B E2) as (o2 & m2 & m2' & F2 & G2 & H2 & K2).
  assert (o1 = ef' /\ o2 = es') as [-> ->] by (split; congruence). exists line', (m1 - m2), (m1' - m2'). split; [exact E0'|]. split; [rewrite V, G1, G2; reflexivity|].
  assert (LL : forall l : list num, last l NaN = nth (length l - 1) l NaN).
  { induction l as [|a [|b l] IH]; [reflexivity|reflexivity|]. change (last (a :: b :: l) NaN) with (last (b :: l) NaN). rewrite IH. cbn [length]. replace (S (S (length l)) - 1)%nat with (S (S (length l) - 1)) by lia. reflexivity. }
  assert (Len : length line' = length (last_rows k i ts) /\ length ef' = length (last_rows k i ts) /\ length es' = length (last_rows k i ts)).
  { destruct (C56_weighted_mean (last_rows k i ts) fast Hf) as (a & A1 & A2 & _). destruct (C56_weighted_mean (last_rows k i ts) slow Hs) as (b & B1 & B2 & _). assert (a = ef' /\ b = es') as [-> ->] by (split; congruence).
    split; [|auto]. unfold ewm_mean in *. unfold macd in E0'. rewrite E1', E2' in E0'. cbn [bind] in E0'. injection E0' as <-. rewrite len_lift2. lia. }
  destruct Len as (L1 & L2 & L3). split.
  - rewrite LL, L1, V'. rewrite LL, L2 in H1. rewrite LL, L3 in H2. rewrite H1, H2. reflexivity.
  - replace (m1 - m2 - (m1' - m2')) with ((m1 - m1') + - (m2 - m2')) by ring. eapply Rle_trans; [apply Rabs_triang|]. rewrite Rabs_Ropp. lra.
Qed.
Print Assumptions C121_macd.
(** the default spans 12 and 26 on prices up to 100: 300 rows of history leave an error below 1/1000 *)
Example C121_macd_example : 100 * (12 + 1) * (1 - 2 / (12 + 1)) ^ 300 + 100 * (26 + 1) * (1 - 2 / (26 + 1)) ^ 300 < 1 / 1000.
Proof.
  assert (A : (1 - 2 / (12 + 1)) ^ 300 <= (1 / 5) ^ 30).
  { replace 300%nat with (10 * 30)%nat by reflexivity. rewrite pow_mult. apply pow_incr. split; [apply pow_le; lra|]. lra. }
  assert (B : (1 - 2 / (26 + 1)) ^ 300 <= (1 / 2) ^ 30).
  { replace 300%nat with (10 * 30)%nat by reflexivity. rewrite pow_mult. apply pow_incr. split; [apply pow_le; lra|]. lra. }
  assert (C : (1 / 5) ^ 30 < 1 / 100000000) by (cbn [pow]; lra). assert (D : (1 / 2) ^ 30 < 1 / 1000000000) by (cbn [pow]; lra). lra.
Qed.


(** one row of the exponentially weighted RSI, from the weighted sums of rises and falls *)
Lemma strength_row : forall ts span out i u d, 1 <= span -> (i < length ts)%nat -> ewm_rsi (map Fin ts) span = Ok out ->
  let a := 2 / (span + 1) in
  sumn (S i) (fun j => (1 - a) ^ (i - j) * Rmax (change ts j) 0) = u -> sumn (S i) (fun j => (1 - a) ^ (i - j) * Rmax (- change ts j) 0) = d -> 0 < u + d ->
  nth i out NaN = Fin (100 * (u / (u + d))).
Proof.
  intros ts span out i u d Hs Hi E a Hu Hd P. unfold ewm_rsi in E. destruct (gains_fin ts) as [G L].
  destruct (C56_weighted_mean (gains (map Fin ts)) span Hs) as (o1 & E1 & L1 & V1). destruct (C56_weighted_mean (losses (map Fin ts)) span Hs) as (o2 & E2 & L2 & V2). unfold ewm_mean in *. rewrite E1, E2 in E. cbn [bind] in E. injection E as <-.
  rewrite nth_lift2 by reflexivity. cbv zeta in V1, V2. fold a in V1, V2.
  assert (NG : forall j, (j < length ts)%nat -> nth j (gains (map Fin ts)) NaN = Fin (Rmax (change ts j) 0)) by (intros j Hj; rewrite G; rewrite (nth_indep _ NaN (Fin (Rmax (change ts (length ts)) 0))) by (rewrite map_length, seq_length; exact Hj); rewrite (map_nth (fun j => Fin (Rmax (change ts j) 0))), seq_nth by exact Hj; reflexivity).
  assert (NL : forall j, (j < length ts)%nat -> nth j (losses (map Fin ts)) NaN = Fin (Rmax (- change ts j) 0)) by (intros j Hj; rewrite L; rewrite (nth_indep _ NaN (Fin (Rmax (- change ts (length ts)) 0))) by (rewrite map_length, seq_length; exact Hj); rewrite (map_nth (fun j => Fin (Rmax (- change ts j) 0))), seq_nth by exact Hj; reflexivity).
  assert (LG : length (gains (map Fin ts)) = length ts) by (rewrite G, map_length, seq_length; reflexivity). assert (LL : length (losses (map Fin ts)) = length ts) by (rewrite L, map_length, seq_length; reflexivity).
  destruct (V1 i ltac:(lia)) as (R1 & _). destruct (R1 _ (NG i Hi)) as [W1 ->]. destruct (V2 i ltac:(lia)) as (R2 & _). destruct (R2 _ (NL i Hi)) as [W2 ->].
  assert (EW : wsum a (fun _ => 1) (losses (map Fin ts)) i = wsum a (fun _ => 1) (gains (map Fin ts)) i) by (unfold wsum; apply S_ext; intros j Hj; rewrite NG, NL by lia; reflexivity).
  rewrite EW. set (w := wsum a (fun _ => 1) (gains (map Fin ts)) i) in *.
  assert (EU : wsum a (fun x => x) (gains (map Fin ts)) i = u) by (rewrite <- Hu; unfold wsum; apply S_ext; intros j Hj; rewrite NG by lia; reflexivity).
  assert (ED : wsum a (fun x => x) (losses (map Fin ts)) i = d) by (rewrite <- Hd; unfold wsum; apply S_ext; intros j Hj; rewrite NL by lia; reflexivity).
  rewrite EU, ED. unfold strength. cbn [nadd]. assert (Q : u / w + d / w = (u + d) / w) by (field; lra). rewrite Q. rewrite ndiv_fin by (apply Rgt_not_eq; apply Rdiv_lt_0_compat; lra). cbn [nmul]. f_equal. field. lra.
Qed.

(** No number of rows suffices for the exponentially weighted RSI, not even nearly: for every k there is a series with an RSI as close to 100 as
    one likes whose last k rows alone give 0. *)
Theorem C121_ewm_rsi_refuted : forall span k e, 1 < span -> (2 <= k)%nat -> 0 < e -> exists x i out out' r, (i < length x)%nat /\ ewm_rsi x span = Ok out /\ ewm_rsi (last_rows k i x) span = Ok out' /\
  nth i out NaN = Fin r /\ 100 - e < r /\ last out' NaN = Fin 0.
Proof.
  intros span k e Hs Hk He. pose proof (alpha_span' span Hs) as Ha. pose proof (alpha_span span ltac:(lra)) as Ha0. set (a := 2 / (span + 1)) in *. set (q := (1 - a) ^ k). assert (Q : 0 < q) by (apply pow_lt; lra).
  set (B := (100 / e + 1) / q). assert (HB : 0 < B) by (apply Rdiv_lt_0_compat; [|exact Q]; assert (0 < 100 / e) by (apply Rdiv_lt_0_compat; lra); lra).
  set (y := repeat B (k - 1) ++ [B - 1]). set (ts := 0 :: B :: y). assert (Ly : length y = k) by (unfold y; rewrite app_length, repeat_length; cbn [length]; lia). assert (Lt : length ts = S (S k)) by (unfold ts; cbn [length]; lia).
  assert (Ny : forall j, nth j y 0 = if Nat.ltb j (k - 1) then B else if Nat.eqb j (k - 1) then B - 1 else 0).
  { intros j. unfold y. destruct (Nat.ltb_spec j (k - 1)).
    - rewrite app_nth1 by (rewrite repeat_length; lia). apply (repeat_spec (k - 1) B). apply nth_In. rewrite repeat_length. lia.
    - rewrite app_nth2; rewrite repeat_length; [|lia]. destruct (Nat.eqb_spec j (k - 1)) as [->|]; [rewrite Nat.sub_diag; reflexivity|]. destruct (j - (k - 1))%nat as [|[|m]] eqn:Em; [lia|reflexivity|reflexivity]. }
  destruct (C56_weighted_mean (gains (map Fin ts)) span ltac:(lra)) as (g1 & Eg1 & _). destruct (C56_weighted_mean (losses (map Fin ts)) span ltac:(lra)) as (l1 & El1 & _).
  destruct (C56_weighted_mean (gains (map Fin y)) span ltac:(lra)) as (g2 & Eg2 & Lg2 & _). destruct (C56_weighted_mean (losses (map Fin y)) span ltac:(lra)) as (l2 & El2 & Ll2 & _).
  assert (E1 : ewm_rsi (map Fin ts) span = Ok (lift2 strength g1 l1)) by (unfold ewm_rsi, ewm_mean in *; rewrite Eg1, El1; reflexivity).
  assert (E2 : ewm_rsi (map Fin y) span = Ok (lift2 strength g2 l2)) by (unfold ewm_rsi, ewm_mean in *; rewrite Eg2, El2; reflexivity).
  exists (map Fin ts), (S k), (lift2 strength g1 l1), (lift2 strength g2 l2), (100 * (q * B / (q * B + 1))).
  assert (LR : last_rows k (S k) (map Fin ts) = map Fin y). { unfold last_rows. rewrite firstn_all2 by (rewrite map_length; lia). replace (S (S k) - k)%nat with 2%nat by lia. reflexivity. }
  split; [rewrite map_length; lia|]. split; [exact E1|]. split; [rewrite LR; exact E2|].
  assert (Ct : forall j, (j < S (S k))%nat -> change ts j = if Nat.eqb j 1 then B else if Nat.eqb j (S k) then -1 else 0).
  { intros j Hj. unfold change. destruct j as [|[|j]]; [cbn; lra|cbn; lra|]. unfold ts. cbn [nth Nat.sub]. destruct (Nat.eqb_spec (S (S j)) 1); [lia|]. destruct j as [|j].
    - cbn [nth]. rewrite Ny. destruct (Nat.ltb_spec 0 (k - 1)); [|lia]. destruct (Nat.eqb_spec 2 (S k)); [lia|]. lra.
    - cbn [nth]. rewrite !Ny. destruct (Nat.ltb_spec j (k - 1)); [|lia]. destruct (Nat.ltb_spec (S j) (k - 1)); destruct (Nat.eqb_spec (S (S (S j))) (S k)); try lia; try lra. destruct (Nat.eqb_spec (S j) (k - 1)); [lra|lia]. }
  assert (Cy : forall j, (j < k)%nat -> change y j = if Nat.eqb j (k - 1) then -1 else 0).
  { intros j Hj. unfold change. destruct j as [|j]; [destruct (Nat.eqb_spec 0 (k - 1)); [lia|reflexivity]|]. cbn [Nat.sub]. rewrite ?Nat.sub_0_r. rewrite !Ny. destruct (Nat.ltb_spec j (k - 1)); [|lia]. destruct (Nat.ltb_spec (S j) (k - 1)); destruct (Nat.eqb_spec (S j) (k - 1)); try lia; lra. }
  assert (One : forall n i0 c, (i0 < n)%nat -> sumn n (fun j => if Nat.eqb j i0 then c else 0) = c).
  { induction n as [|n IH]; intros i0 c H; [lia|]. rewrite S_succ. destruct (Nat.eqb_spec n i0) as [->|N].
    - assert (Z : sumn i0 (fun j => if Nat.eqb j i0 then c else 0) = sumn i0 (fun _ => 0)) by (apply S_ext; intros j Hj; destruct (Nat.eqb_spec j i0); [lia|reflexivity]). rewrite Z. clear. assert (sumn i0 (fun _ => 0) = 0) by (induction i0 as [|m IH]; [reflexivity|rewrite S_succ, IH; ring]). lra.
    - rewrite IH by lia. ring. }
  assert (M0 : Rmax 0 0 = 0) by (apply Rmax_left; lra).
  split; [|split].
  - apply (strength_row ts span _ (S k) (q * B) 1 ltac:(lra) ltac:(lia) E1); fold a.
    + transitivity (sumn (S (S k)) (fun j => if Nat.eqb j 1%nat then (q * B) else 0)); [|apply One; lia]. apply S_ext. intros j Hj. rewrite Ct by exact Hj. destruct (Nat.eqb_spec j 1) as [->|N1]; [replace (S k - 1)%nat with k by lia; rewrite Rmax_left by lra; reflexivity|].
      destruct (Nat.eqb j (S k)); [rewrite Rmax_right by lra|rewrite M0]; ring.
    + transitivity (sumn (S (S k)) (fun j => if Nat.eqb j (S k) then 1 else 0)); [|apply One; lia]. apply S_ext. intros j Hj. rewrite Ct by exact Hj. destruct (Nat.eqb_spec j 1) as [->|N1]; [destruct (Nat.eqb_spec 1 (S k)); [lia|]; rewrite Rmax_right by lra; ring|].
      destruct (Nat.eqb_spec j (S k)) as [->|]; [rewrite Nat.sub_diag, Rmax_left by lra; cbn [pow]; ring|rewrite Ropp_0, M0; ring].
    + assert (0 < q * B) by (apply Rmult_lt_0_compat; assumption). lra.
  - assert (QB : q * B = 100 / e + 1) by (unfold B; field; lra). rewrite QB. assert (P : 0 < 100 / e) by (apply Rdiv_lt_0_compat; lra).
    assert (Ez : e * (100 / e) = 100) by (field; lra). set (z := 100 / e) in *. clearbody z.
    replace (100 * ((z + 1) / (z + 1 + 1))) with (100 - 100 / (z + 2)) by (field; lra).
    apply Rplus_lt_compat_l, Ropp_lt_contravar. apply (Rmult_lt_reg_r (z + 2)); [lra|]. unfold Rdiv at 1. rewrite Rmult_assoc, Rinv_l by lra. lra.
  - assert (LO : length (lift2 strength g2 l2) = k). { destruct (gains_fin y) as [G L]. rewrite len_lift2, Lg2, Ll2, G, L, !map_length, !seq_length. lia. }
    rewrite last_nth', LO. rewrite (strength_row y span _ (k - 1) 0 1 ltac:(lra) ltac:(lia) E2); fold a; [f_equal; field| | |lra].
    + transitivity (sumn (S (k - 1)) (fun j => if Nat.eqb j 0 then 0 else 0)); [|apply One; lia]. apply S_ext. intros j Hj. rewrite Cy by lia. destruct (Nat.eqb j (k - 1)); [rewrite Rmax_right by lra|rewrite M0]; destruct (Nat.eqb j 0); ring.
    + transitivity (sumn (S (k - 1)) (fun j => if Nat.eqb j (k - 1)%nat then 1 else 0)); [|apply One; lia]. apply S_ext. intros j Hj. rewrite Cy by lia. destruct (Nat.eqb_spec j (k - 1)) as [->|]; [rewrite Nat.sub_diag, Rmax_left by lra; cbn [pow]; ring|rewrite Ropp_0, M0; ring].
Qed.
Print Assumptions C121_ewm_rsi_refuted.
(** a thousand rows and a span of 14: the RSI is above 99, the buffer says 0 *)
Example C121_ewm_rsi_refuted_example : exists x i out out' r, (i < length x)%nat /\ ewm_rsi x 14 = Ok out /\ ewm_rsi (last_rows 1000 i x) 14 = Ok out' /\
  nth i out NaN = Fin r /\ 100 - 1 < r /\ last out' NaN = Fin 0.
Proof. apply (C121_ewm_rsi_refuted 14 1000 1); [lra| |lra]. apply (Nat.le_trans _ 1000); [|apply le_n]. apply Nat.leb_le. reflexivity. Qed.
