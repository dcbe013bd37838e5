(** The last rows and the exponentially weighted momentum (C121). *)
From Coq Require Import Reals Lra Psatz ZArith List Arith Bool Lia.
From Verif Require Import Base Num Sums Feat_Ops Feat_Spec Feat_Proofs Ewm_Proofs Feat_Model Feat_Causal_Props Feat_Avg_Props Feat_Band_Props Feat_More_Props Buf_Proofs Buf_Props.
Import ListNotations.
Open Scope R_scope.

Lemma nth_changes : forall ts j, (S j < length ts)%nat -> nth (S j) (changes ts) NaN = nsub (nth (S j) ts NaN) (nth j ts NaN).
Proof. intros ts j H. rewrite <- diff_changes. rewrite nth_diff1 by auto. reflexivity. Qed.
Lemma nth_changes0 : forall ts, nth 0 (changes ts) NaN = NaN.
Proof. intros [|x ts]; reflexivity. Qed.
Lemma nth_firstn1 : forall (l : list num) s i, (i < s)%nat -> nth i (firstn s l) NaN = nth i l NaN.
Proof. induction l as [|x l IH]; intros [|s] [|i] H; try lia; try reflexivity. cbn [firstn nth]. apply IH. lia. Qed.
(** the changes of a buffer are those of the series, but for its first row *)
Lemma changes_buffer : forall ts k i, (i < length ts)%nat -> (k <= i)%nat -> (1 <= k)%nat -> changes (last_rows (S k) i ts) = NaN :: last_rows k i (changes ts).
Proof.
  intros ts k i Hi Hk H1.
  assert (L1 : length (last_rows (S k) i ts) = S k) by (unfold last_rows; rewrite skipn_length, firstn_length; lia).
  assert (L2 : length (last_rows k i (changes ts)) = k) by (unfold last_rows; rewrite skipn_length, firstn_length, len_changes; lia).
  apply list_ext; [rewrite len_changes, L1; cbn [length]; rewrite L2; reflexivity|]. rewrite len_changes, L1. intros j Hj. destruct j as [|j]; [apply nth_changes0|].
  rewrite nth_changes by lia. change (nth (S j) (NaN :: last_rows k i (changes ts)) NaN) with (nth j (last_rows k i (changes ts)) NaN). unfold last_rows. rewrite !nth_skipn'. rewrite !nth_firstn1 by lia.
  replace (S i - S k + S j)%nat with (S (i - k + j)) by lia. replace (S i - k + j)%nat with (S (i - k + j)) by lia. replace (S i - S k + j)%nat with (i - k + j)%nat by lia. rewrite nth_changes by lia. reflexivity.
Qed.
Lemma last_nth : forall l : list num, last l NaN = nth (length l - 1) l NaN.
Proof.
  induction l as [|a [|b l] IH]; [reflexivity|reflexivity|]. change (last (a :: b :: l) NaN) with (last (b :: l) NaN). rewrite IH. cbn [length]. replace (S (S (length l)) - 1)%nat with (S (S (length l) - 1)) by lia. reflexivity.
Qed.

(** Computed from the last k + 1 rows, hence from k changes, the exponentially weighted momentum is off by at most M (span + 1) q^k, where no change
    is larger than M. *)
Theorem C121_ewm_mom : forall ts span k M i a b out, 1 <= span -> (1 <= k)%nat -> (S i < length ts)%nat -> nth i ts NaN = Fin a -> nth (S i) ts NaN = Fin b ->
  (forall j x y, (j <= i)%nat -> nth j ts NaN = Fin x -> nth (S j) ts NaN = Fin y -> Rabs (y - x) <= M) -> ewm_mom ts span 0 = Ok out ->
  exists out' m m', ewm_mom (last_rows (S k) (S i) ts) span 0 = Ok out' /\ nth (S i) out NaN = Fin m /\ last out' NaN = Fin m' /\
    Rabs (m - m') <= M * (span + 1) * (1 - 2 / (span + 1)) ^ k.
Proof.
  intros ts span k M i a b out Hs Hk Hi Ea Eb B E. pose proof (alpha_span span Hs) as Ha. unfold ewm_mom in *. rewrite diff_changes in *.
  assert (Ex : nth (S i) (changes ts) NaN = Fin (b - a)) by (rewrite nth_changes, Ea, Eb by lia; reflexivity).
  assert (BC : forall j y, (j <= S i)%nat -> nth j (changes ts) NaN = Fin y -> Rabs y <= M).
  { intros [|j] y Hj Ey; [rewrite nth_changes0 in Ey; discriminate|]. rewrite nth_changes in Ey by lia.
    destruct (nth (S j) ts NaN) as [p| | |] eqn:E1; destruct (nth j ts NaN) as [q| | |] eqn:E2; cbn in Ey; try discriminate. injection Ey as <-. apply (B j); auto. lia. }
  destruct (C121_ewm (changes ts) span k M (S i) (b - a) out Hs Hk ltac:(rewrite len_changes; exact Hi) Ex BC E) as (o' & m & m' & E' & Em & Em' & Q).
  unfold ewm_mean in E'. rewrite ewm_span_ok in E' by auto. injection E' as <-. rewrite ewm_span_ok by auto.
  destruct (Nat.le_gt_cases k (S i)) as [C|C].
  - rewrite changes_buffer by lia. exists (NaN :: ewm_run (2 / (span + 1)) 0 init_e (last_rows k (S i) (changes ts))), m, m'. split; [reflexivity|]. split; [exact Em|]. split; [|exact Q].
    destruct (ewm_run (2 / (span + 1)) 0 init_e (last_rows k (S i) (changes ts))) as [|c l] eqn:F; [cbn in Em'; discriminate|exact Em'].
  - (* the buffer is all there is *)
    assert (W : last_rows (S k) (S i) ts = firstn (S (S i)) ts) by (unfold last_rows; replace (S (S i) - S k)%nat with 0%nat by lia; reflexivity). rewrite W.
    assert (CS : causal1 (fun ts => ewm_mom ts span 0)) by exact (proj1 (proj2 (proj2 (proj2 (proj2 (proj2 (proj2 (proj2 (C53_indicators 0 span 1 1 1 0 ltac:(lia)))))))))).
    assert (E0 : ewm_mom ts span 0 = Ok out) by (unfold ewm_mom; rewrite diff_changes; exact E). destruct (CS ts out E0) as [Lo P]. specialize (P (S (S i))). unfold ewm_mom in P. rewrite diff_changes, ewm_span_ok in P by auto.
    exists (firstn (S (S i)) out), m, m. split; [exact P|]. split; [exact Em|]. split.
    + rewrite last_nth, firstn_length, Lo. replace (Nat.min (S (S i)) (length ts) - 1)%nat with (S i) by lia. rewrite nth_firstn1 by lia. exact Em.
    + replace (m - m) with 0 by ring. rewrite Rabs_R0. eapply Rle_trans; [|exact Q]. apply Rabs_pos.
Qed.
Print Assumptions C121_ewm_mom.
(** No number of rows gives it exactly when span > 1. *)
Theorem C121_ewm_mom_refuted : forall span k, 1 < span -> ~ needs1 k (fun ts => ewm_mom ts span 0).
Proof.
  intros span k Hs H. pose proof (alpha_span span ltac:(lra)) as Ha. pose proof (alpha_span' span Hs) as Ha'. set (a := 2 / (span + 1)) in *.
  (* one rise, then nothing for k rows *)
  set (ts := Fin 0 :: repeat (Fin 1) (S k)). assert (Lt : length ts = S (S k)) by (unfold ts; cbn [length]; rewrite repeat_length; reflexivity).
  destruct (C92_ewm ts span 0 ltac:(lra)) as (out & mean & E & Lo & Em & Row). cbv zeta in Row. fold a in Row. destruct (H ts out (S k) E ltac:(lia)) as (out' & E' & V).
  assert (N1 : forall j, (1 <= j <= S k)%nat -> nth j ts NaN = Fin 1). { intros [|j] Hj; [lia|]. unfold ts. cbn [nth]. apply (repeat_spec (S k) (Fin 1)). apply nth_In. rewrite repeat_length. lia. }
  assert (D1 : nth 1 (changes ts) NaN = Fin 1). { rewrite nth_changes, (N1 1%nat) by lia. cbn. f_equal. ring. }
  assert (D0 : forall j, (2 <= j <= S k)%nat -> nth j (changes ts) NaN = Fin 0). { intros [|j] Hj; [lia|]. rewrite nth_changes, (N1 (S j)), (N1 j) by lia. cbn. f_equal. ring. }
  assert (Last : exists x, nth (S k) (changes ts) NaN = Fin x) by (destruct k as [|k']; [exists 1; exact D1|exists 0; apply D0; lia]). destruct Last as [x Ex].
  assert (SC : (1 <= seen_count (changes ts) (S k))%nat).
  { unfold seen_count. destruct (filter is_num (firstn (S (S k)) (changes ts))) as [|c l] eqn:F; [|cbn [length]; lia]. exfalso.
    assert (In (nth 1 (changes ts) NaN) (filter is_num (firstn (S (S k)) (changes ts)))). { apply filter_In. split; [|rewrite D1; reflexivity]. rewrite <- (nth_firstn1 _ (S (S k))) by lia. apply nth_In. rewrite firstn_length, len_changes. lia. } rewrite F in H0. destruct H0. }
  destruct (Row (S k) ltac:(lia)) as (_ & R2). destruct (R2 ltac:(lia)) as [_ R3]. specialize (R3 x Ex). rewrite R3 in V.
  assert (WS : wsum a (fun x => x) (changes ts) (S k) = (1 - a) ^ k).
  { assert (G : forall n, (n <= k)%nat -> wsum a (fun x => x) (changes ts) (S n) = (1 - a) ^ n).
    { induction n as [|n IH]; intros Hn; rewrite wsum_S.
      - rewrite D1. unfold wsum. rewrite S_succ, nth_changes0. cbn. ring.
      - rewrite IH, D0 by lia. cbn. ring. }
    apply G. lia. }
  assert (WP : 0 < wsum a (fun _ => 1) (changes ts) (S k)) by (apply wsum_pos; [lra|]; exists 1%nat, 1; split; [lia|exact D1]).
  assert (PP : 0 < (1 - a) ^ k) by (apply pow_lt; lra).
  assert (POS : 0 < wsum a (fun x => x) (changes ts) (S k) / wsum a (fun _ => 1) (changes ts) (S k)) by (rewrite WS; apply Rdiv_lt_0_compat; auto).
  (* the last k rows show no change at all *)
  assert (LR : last_rows k (S k) ts = repeat (Fin 1) k).
  { unfold last_rows. rewrite firstn_all2 by lia. replace (S (S k) - k)%nat with 2%nat by lia. unfold ts. cbn [repeat skipn]. reflexivity. }
  rewrite LR in E'. destruct (C92_ewm (repeat (Fin 1) k) span 0 ltac:(lra)) as (o & me & E1 & L1 & M1 & Row1). rewrite E1 in E'. injection E' as <-. cbv zeta in Row1. fold a in Row1. rewrite repeat_length in *.
  assert (CZ : forall j y, nth j (changes (repeat (Fin 1) k)) NaN = Fin y -> y = 0).
  { intros [|j] y Ey; [rewrite nth_changes0 in Ey; discriminate|]. destruct (Nat.lt_ge_cases (S j) k) as [Hj|Hj].
    - rewrite nth_changes in Ey by (rewrite repeat_length; exact Hj). rewrite !(nth_indep _ NaN (Fin 1)) in Ey by (rewrite repeat_length; lia). rewrite !nth_repeat in Ey. cbn in Ey. injection Ey as <-. ring.
    - rewrite nth_overflow in Ey by (rewrite len_changes, repeat_length; lia). discriminate. }
  rewrite last_nth, L1 in V. destruct k as [|k']; [destruct o; [cbn in V; discriminate|cbn in L1; discriminate]|].
  replace (S k' - 1)%nat with k' in V by lia. destruct (Row1 k' ltac:(lia)) as (Q1 & Q2).
  destruct (Nat.le_gt_cases (Nat.max 0 1) (seen_count (changes (repeat (Fin 1) (S k'))) k')) as [C|C]; [|rewrite (Q1 C) in V; discriminate].
  destruct (Q2 C) as [_ Q3]. destruct (nth k' (changes (repeat (Fin 1) (S k'))) NaN) as [y| | |] eqn:Ey.
  - rewrite (Q3 y eq_refl) in V. injection V as V. rewrite <- V in POS.
    assert (Z : wsum a (fun x => x) (changes (repeat (Fin 1) (S k'))) k' = 0).
    { unfold wsum. transitivity (sumn (S k') (fun _ => 0)); [apply S_ext; intros j Hj|].
      - destruct (nth j (changes (repeat (Fin 1) (S k'))) NaN) as [z| | |] eqn:Ez; cbn [on_present present]; try ring. rewrite (CZ j z Ez). cbn. ring.
      - clear. induction (S k') as [|n IH]; [reflexivity|]. rewrite S_succ, IH. ring. }
    change (Fin 1 :: repeat (Fin 1) k') with (repeat (Fin 1) (S k')) in POS. rewrite Z in POS. unfold Rdiv in POS. rewrite Rmult_0_l in POS. lra.
  - destruct k' as [|k2]; [|rewrite nth_changes in Ey by (rewrite repeat_length; lia); rewrite !(nth_indep _ NaN (Fin 1)) in Ey by (rewrite repeat_length; lia); rewrite !nth_repeat in Ey; cbn in Ey; discriminate].
    unfold seen_count in C. cbn in C. lia.
  - destruct k' as [|k2]; [rewrite nth_changes0 in Ey; discriminate|]. rewrite nth_changes in Ey by (rewrite repeat_length; lia). rewrite !(nth_indep _ NaN (Fin 1)) in Ey by (rewrite repeat_length; lia). rewrite !nth_repeat in Ey. cbn in Ey. discriminate.
  - destruct k' as [|k2]; [rewrite nth_changes0 in Ey; discriminate|]. rewrite nth_changes in Ey by (rewrite repeat_length; lia). rewrite !(nth_indep _ NaN (Fin 1)) in Ey by (rewrite repeat_length; lia). rewrite !nth_repeat in Ey. cbn in Ey. discriminate.
Qed.
Print Assumptions C121_ewm_mom_refuted.
(** daily changes up to 5 with the default span 20: 201 rows of history leave an error below 1/1000 *)
Example C121_ewm_mom_example : 5 * (20 + 1) * (1 - 2 / (20 + 1)) ^ 200 < 1 / 1000.
Proof.
  assert (A : (1 - 2 / (20 + 1)) ^ 200 <= (2 / 5) ^ 20).
  { replace 200%nat with (10 * 20)%nat by reflexivity. rewrite pow_mult. apply pow_incr. split; [apply pow_le; lra|]. lra. }
  assert (C : (2 / 5) ^ 20 < 1 / 10000000) by (cbn [pow]; lra). lra.
Qed.
(** a series the theorem applies to *)
Example C121_ewm_mom_applies : exists out out' m m', ewm_mom [Fin 0; Fin 1; NaN; Fin 3; Fin 1] 3 0 = Ok out /\ ewm_mom (last_rows 3 4 [Fin 0; Fin 1; NaN; Fin 3; Fin 1]) 3 0 = Ok out' /\
  nth 4 out NaN = Fin m /\ last out' NaN = Fin m' /\ Rabs (m - m') <= 2 * (3 + 1) * (1 - 2 / (3 + 1)) ^ 2.
Proof.
  set (ts := [Fin 0; Fin 1; NaN; Fin 3; Fin 1]). destruct (C92_ewm ts 3 0 ltac:(lra)) as (out & _ & E & _).
  destruct (C121_ewm_mom ts 3 2 2 3 3 1 out ltac:(lra) ltac:(lia) ltac:(cbn; lia) eq_refl eq_refl) as (out' & m & m' & E' & V & V' & Q); [|exact E|exists out, out', m, m'; auto].
  intros j x y Hj Ex Ey. destruct j as [|[|[|[|j]]]]; cbn in Ex, Ey; try discriminate; try lia; injection Ex as <-; injection Ey as <-; apply Rabs_le; lra.
Qed.
