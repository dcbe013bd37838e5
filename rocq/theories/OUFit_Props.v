(** Property C103: what the fit of the Ornstein-Uhlenbeck model gives for every series. *)
From Coq Require Import Reals Lra String ZArith List Arith Bool Lia.
From Verif Require Import Base Num Sim_Model Sim_Spec Sim_Proofs Sim_Fit_Proofs Sim_OU_Props OUFit_Spec.
Import ListNotations.
Open Scope R_scope.

(** ** Best lines *)
Lemma sq_error_nonneg : forall a b pts, 0 <= sq_error a b pts.
Proof. intros. apply rsum_nonneg. intros x Hx. apply in_map_iff in Hx as (p & <- & _). apply pow2_ge_0. Qed.
Lemma sq_error_mid : forall a b a' b' pts, sq_error ((a + a') / 2) ((b + b') / 2) pts <= sq_error a b pts / 2 + sq_error a' b' pts / 2.
Proof.
  intros. unfold sq_error. replace (rsum (map (fun p => (snd p - (a * fst p + b)) ^ 2) pts) / 2) with (/ 2 * rsum (map (fun p => (snd p - (a * fst p + b)) ^ 2) pts)) by (unfold Rdiv; ring).
  replace (rsum (map (fun p => (snd p - (a' * fst p + b')) ^ 2) pts) / 2) with (/ 2 * rsum (map (fun p => (snd p - (a' * fst p + b')) ^ 2) pts)) by (unfold Rdiv; ring).
  rewrite <- !rsum_scal, <- rsum_plus. apply rsum_le. intros [u w] _. cbn [fst snd].
  pose proof (pow2_ge_0 ((w - (a * u + b)) - (w - (a' * u + b')))). nra.
Qed.
Lemma best_line_unique : forall s i s' i' pts, best_line s i pts -> best_line s' i' pts -> s = s' /\ i = i'.
Proof.
  intros s i s' i' pts [H1 H2] [K1 K2]. assert (E : sq_error s i pts = sq_error s' i' pts) by (apply Rle_antisym; auto).
  pose proof (sq_error_mid s i s' i' pts) as M. rewrite <- E in M. replace (sq_error s i pts / 2 + sq_error s i pts / 2) with (sq_error s i pts) in M by field.
  assert (EM : sq_error ((s + s') / 2) ((i + i') / 2) pts = sq_error s i pts) by (apply Rle_antisym; auto).
  pose proof (H2 _ _ EM) as N1. rewrite E in EM. pose proof (K2 _ _ EM) as N2.
  assert ((s - s') ^ 2 + (i - i') ^ 2 <= 0) by nra. pose proof (pow2_ge_0 (s - s')). pose proof (pow2_ge_0 (i - i')). split; nra.
Qed.
Lemma used_line_unique : forall x s i s' i', used_line x s i -> used_line x s' i' -> s = s' /\ i = i'.
Proof.
  intros x s i s' i' (s0 & i0 & B & H) (s1 & i1 & B' & H'). destruct (best_line_unique _ _ _ _ _ B B') as [-> ->].
  destruct H as [(H & -> & ->)|(H & -> & ->)], H' as [(H' & -> & ->)|(H' & -> & ->)]; split; lra.
Qed.
Lemma used_line_pos : forall x s i, used_line x s i -> 0 < s.
Proof. intros x s i (s0 & i0 & _ & [(H & -> & _)|(H & -> & _)]); lra. Qed.

(** the least squares step finds it *)
Lemma lstsq_best : forall x, (2 <= length x)%nat -> exists s i, best_line s i (lagged x) /\ lstsq_line (fins (removelast x)) (fins (tl x)) = Ok (Fin s, Fin i).
Proof.
  intros x Hl.
  assert (Hne : lagged x <> []) by (intros E; apply (f_equal (@length _)) in E; rewrite lagged_length in E; simpl in E; lia).
  unfold lstsq_line. rewrite !forallb_fins, !map_real_of_fins. cbn [andb]. fold (lagged x).
  set (mx := rmean (removelast x)). set (my := rmean (tl x)).
  set (sxx := rsum (map (fun a => (a - mx) * (a - mx)) (removelast x))). set (sxy := rsum (map (fun p => (fst p - mx) * (snd p - my)) (lagged x))).
  assert (Exx : sxx = rsum (map (fun p => (fst p - mx) * (fst p - mx)) (lagged x))) by (unfold sxx; rewrite <- (lagged_fst x) at 1; rewrite map_map; reflexivity).
  assert (Zx : rsum (map (fun p => fst p - mx) (lagged x)) = 0) by (unfold mx; rewrite <- lagged_fst; apply rsum_minus_mean; auto).
  assert (Zy : rsum (map (fun p => snd p - my) (lagged x)) = 0) by (unfold my; rewrite <- lagged_snd; apply rsum_minus_mean; auto).
  assert (Dec : forall s i a b, s * sxx = sxy -> s * mx + i = my -> sq_error a b (lagged x)
     = sq_error s i (lagged x) + (a - s) ^ 2 * sxx + INR (length (lagged x)) * (a * mx + b - my) ^ 2).
  { intros s i a b Hs Hi. unfold sq_error. set (da := a - s). set (e := a * mx + b - my).
    rewrite (rsum_ext _ (fun p => (snd p - (a * fst p + b)) ^ 2)
       (fun p => ((snd p - (s * fst p + i)) ^ 2 + (da ^ 2) * ((fst p - mx) * (fst p - mx)) + e ^ 2)
                 + (((-2 * da) * ((fst p - mx) * (snd p - my)) + (2 * da * s) * ((fst p - mx) * (fst p - mx)))
                    + ((-2 * e) * (snd p - my) + (2 * e * (s + da)) * (fst p - mx))))).
    2:{ intros p _. subst da e. replace i with (my - s * mx) by lra. ring. }
    rewrite !rsum_plus, !rsum_scal, rsum_const, Zx, Zy. fold sxy. rewrite <- Exx, <- Hs. ring. }
  assert (PN : 0 < INR (length (lagged x))) by (apply INR_length_pos; auto).
  assert (Psx : 0 <= sxx) by (apply rsum_nonneg; intros q Hq; apply in_map_iff in Hq as (p & <- & _); apply Rle_0_sqr).
  destruct (Req_dec sxx 0) as [Z|NZ].
  - rewrite (proj2 (reqb_true sxx 0)) by auto. exists (my * mx / (mx * mx + 1)), (my / (mx * mx + 1)). split; [|reflexivity].
    assert (PM : 0 < mx * mx + 1) by nra. set (s := my * mx / (mx * mx + 1)). set (i := my / (mx * mx + 1)).
    assert (Ei : s * mx + i = my) by (unfold s, i; field; lra). assert (Es : s = i * mx) by (unfold s, i; field; lra).
    assert (Hxy : sxy = 0).
    { unfold sxy. rewrite (rsum_ext _ _ (fun _ => 0)); [rewrite rsum_const; ring|]. intros [u w] Hp. cbn [fst snd].
      assert (In u (removelast x)) by (rewrite <- lagged_fst; apply in_map_iff; exists (u, w); auto).
      rewrite (sxx_zero_const (removelast x) Z u) by auto. unfold mx. ring. }
    assert (Hs : s * sxx = sxy) by (rewrite Z, Hxy; ring). split.
    + intros a b. rewrite (Dec s i a b Hs Ei), Z. pose proof (pow2_ge_0 (a * mx + b - my)). nra.
    + intros a b E. rewrite (Dec s i a b Hs Ei), Z in E. assert (F : (a * mx + b - my) ^ 2 = 0) by nra.
      assert (F' : a * mx + b - my = 0) by (apply Rsqr_0_uniq; rewrite Rsqr_pow2; exact F).
      assert (EE : (a - i * mx) * mx + (b - i) = 0) by nra. rewrite Es.
      replace (a ^ 2 + b ^ 2) with ((i * mx) ^ 2 + i ^ 2 + (a - i * mx) ^ 2 + (b - i) ^ 2 + 2 * i * ((a - i * mx) * mx + (b - i))) by ring. rewrite EE.
      pose proof (pow2_ge_0 (a - i * mx)). pose proof (pow2_ge_0 (b - i)). lra.
  - rewrite (proj2 (reqb_false sxx 0)) by auto. exists (sxy / sxx), (my - sxy / sxx * mx). split; [|reflexivity].
    set (s := sxy / sxx). assert (Hs : s * sxx = sxy) by (unfold s; field; auto). assert (Ei : s * mx + (my - s * mx) = my) by ring. split.
    + intros a b. rewrite (Dec s _ a b Hs Ei). pose proof (pow2_ge_0 (a * mx + b - my)). pose proof (pow2_ge_0 (a - s)). nra.
    + intros a b E. rewrite (Dec s _ a b Hs Ei) in E. pose proof (pow2_ge_0 (a * mx + b - my)) as Q1. pose proof (pow2_ge_0 (a - s)) as Q2.
      assert (F1 : (a - s) ^ 2 = 0) by (apply Rle_antisym; [|auto]; assert (0 < sxx) by lra; nra). assert (F2 : (a * mx + b - my) ^ 2 = 0) by nra.
      assert (G1 : a - s = 0) by (apply Rsqr_0_uniq; rewrite Rsqr_pow2; exact F1). assert (G2 : a * mx + b - my = 0) by (apply Rsqr_0_uniq; rewrite Rsqr_pow2; exact F2).
      assert (a = s) by lra. subst a. assert (b = my - s * mx) by lra. subst b. apply Rle_refl.
Qed.

Lemma ou_fit_col_used : forall a v x, col a v = fins x -> (2 <= length x)%nat ->
  exists s i, used_line x s i /\ ou_fit_col a v = Ok (Fin s, Fin i, fins (residuals_of s i (lagged x))).
Proof.
  intros a v x Hc Hl. destruct (lstsq_best x Hl) as (s0 & i0 & B & E). unfold ou_fit_col. rewrite Hc.
  assert (Erl : removelast (fins x) = fins (removelast x)) by apply removelast_map. assert (Etl : tl (fins x) = fins (tl x)) by apply tl_map.
  rewrite Erl, Etl, E. cbn [bind fst snd]. rewrite nleb_fin.
  assert (Er : forall s i, map (fun w => nsub (snd w) (nadd (nmul (Fin s) (fst w)) (Fin i))) (combine (fins (removelast x)) (fins (tl x))) = fins (residuals_of s i (lagged x))).
  { intros s i. unfold fins, residuals_of, lagged. rewrite combine_map, !map_map. apply map_ext. intros [u w]. reflexivity. }
  destruct (Rle_dec s0 slope_tol) as [L|G].
  - rewrite (proj2 (rleb_true _ _)) by auto. cbn [fst snd]. exists slope_tol, (rmean (tl x)). split.
    + exists s0, i0. split; [auto|right; unfold slope_tol in *; lra].
    + assert (NM : nmean (fins (tl x)) = Fin (rmean (tl x))) by (apply nmean_fin; intros X; apply (f_equal (@length _)) in X; rewrite length_tl in X; simpl in X; lia). rewrite NM, Er. reflexivity.
  - rewrite (proj2 (rleb_false _ _)) by lra. cbn [fst snd]. exists s0, i0. split; [exists s0, i0; split; [auto|left; unfold slope_tol in *; lra]|]. rewrite Er. reflexivity.
Qed.

Lemma mrr_fin : forall s dt, 0 < s -> 0 < dt -> ndiv (nneg (nlog (Fin s))) (Fin dt) = Fin (line_mrr s dt).
Proof. intros s dt Hs Hdt. rewrite nlog_fin by auto. cbn [nneg]. rewrite ndiv_fin by lra. reflexivity. Qed.
Lemma mean_fin : forall s i, ndiv (Fin i) (nsub (Fin 1) (Fin s)) = line_mean s i.
Proof.
  intros s i. rewrite nsub_fin. unfold line_mean. destruct (Req_dec s 1) as [->|N].
  - rewrite (proj2 (reqb_true 1 1)) by auto. unfold ndiv. rewrite (proj2 (reqb_true (1 - 1) 0)) by lra. unfold sgn_inf. destruct (rltb 0 i); [reflexivity|]. destruct (rltb i 0); reflexivity.
  - rewrite (proj2 (reqb_false s 1)) by auto. rewrite ndiv_fin by lra. reflexivity.
Qed.
Lemma ln_sign : forall s, 0 < s -> s <> 1 -> 0 < - ln s / (1 - s ^ 2).
Proof.
  intros s Hs Hn. destruct (Rlt_or_le s 1) as [L|G].
  - apply Rdiv_lt_0_compat; [|nra]. assert (ln s < 0) by (rewrite <- ln_1; apply ln_increasing; auto). lra.
  - assert (1 < s) by lra. replace (- ln s / (1 - s ^ 2)) with (ln s / (s ^ 2 - 1)) by (field; split; nra). apply Rdiv_lt_0_compat; [|nra]. rewrite <- ln_1. apply ln_increasing; lra.
Qed.
Lemma vol_radicand : forall s dt v, 0 < s -> 0 < dt -> 0 <= v -> s <> 1 -> 0 <= 2 * line_mrr s dt * v / (1 - s ^ 2).
Proof.
  intros s dt v Hs Hdt Hv Hn. pose proof (ln_sign s Hs Hn) as P. unfold line_mrr.
  assert (s ^ 2 <> 1) by nra. replace (2 * (- ln s / dt) * v / (1 - s ^ 2)) with (2 * v * / dt * (- ln s / (1 - s ^ 2))) by (field; split; lra).
  pose proof (Rinv_0_lt_compat dt Hdt). apply Rmult_le_pos; [|lra]. apply Rmult_le_pos; lra.
Qed.
Lemma vol_fin : forall s dt r, 0 < s -> 0 < dt -> (2 <= length r)%nat ->
  nsqrt (ndiv (nmul (nmul (Fin 2) (Fin (line_mrr s dt))) (nsqr (nstd 1 (fins r)))) (nsub (Fin 1) (nsqr (Fin s)))) = line_vol s dt (rvar 1 r).
Proof.
  intros s dt r Hs Hdt Hr. unfold fins. rewrite nstd_fin by lia. pose proof (rvar_nonneg 1 r ltac:(lia)) as Hv. unfold nsqr. cbn [nmul]. rewrite sqrt_sqrt by auto. rewrite nsub_fin. unfold line_vol.
  destruct (Req_dec s 1) as [->|N].
  - rewrite (proj2 (reqb_true 1 1)) by auto. unfold ndiv. rewrite (proj2 (reqb_true (1 - 1 * 1) 0)) by ring.
    unfold line_mrr, sgn_inf. rewrite ln_1. replace (2 * (- 0 / dt) * rvar 1 r) with 0 by (unfold Rdiv; ring). rewrite (proj2 (rltb_false 0 0)) by lra. reflexivity.
  - rewrite (proj2 (reqb_false s 1)) by auto. rewrite ndiv_fin by nra. replace (1 - s * s) with (1 - s ^ 2) by ring. rewrite nsqrt_fin by (apply vol_radicand; auto). reflexivity.
Qed.

(* ------------------------------------------------------------------ *)
(** ** C103 *)

(** Every series of at least three finite values is fitted, with parameters read off its line. *)
Theorem C103_every_series : forall x, (3 <= length x)%nat -> exists s i,
  used_line x s i /\ (forall s' i', used_line x s' i' -> s' = s /\ i' = i)
  /\ forall infer chol o dt, 0 < dt ->
     let (fitted, outcome) := fit infer (ou_fit_np chol) o (DNp1 (fins x)) (Some (Fin dt)) in
     outcome = Ok tt
     /\ ou_mean (o_par fitted) = Scal (line_mean s i)
     /\ ou_mrr (o_par fitted) = Scal (Fin (line_mrr s dt))
     /\ ou_vol (o_par fitted) = Row [line_vol s dt (rvar 1 (residuals_of s i (lagged x)))]
     /\ ou_cor (o_par fitted) = None.
Proof.
  intros x Hl. destruct (ou_fit_col_used (col_vec (fins x)) 0 x (col_col_vec _) ltac:(lia)) as (s & i & U & E). exists s, i. split; [exact U|].
  split; [intros s' i' U'; apply (used_line_unique x); auto|]. intros infer chol o dt Hdt. pose proof (used_line_pos _ _ _ U) as Hs.
  unfold fit, preprocess_fit. cbn [to_numpy2 index_info get_date_time_index nrow ncol col_vec].
  rewrite length_fins. destruct (Nat.eqb_spec (length x) 0); [lia|].
  unfold ou_fit_np. cbn [ncol col_vec seq mapM]. rewrite <- (length_fins x). fold (col_vec (fins x)). rewrite E. cbn [bind mapM Nat.ltb Nat.leb rev app].
  cbn [o_par ou_mrr ou_mean ou_vol ou_cor map snd]. rewrite mrr_fin, mean_fin, vol_fin by (auto; unfold residuals_of; rewrite map_length, lagged_length; lia). auto.
Qed.
Print Assumptions C103_every_series.

(** The sign of the fitted mrr: positive exactly for slopes below 1, negative exactly for slopes above; vol is a number, and not negative,
    exactly for slopes other than 1; so is mean. *)
Theorem C103_signs : forall s i dt v, 0 < s -> 0 < dt -> 0 <= v ->
  (0 < line_mrr s dt <-> s < 1) /\ (line_mrr s dt < 0 <-> 1 < s) /\ (line_mrr s dt = 0 <-> s = 1)
  /\ ((exists w, line_vol s dt v = Fin w /\ 0 <= w) <-> s <> 1) /\ ((exists w, line_mean s i = Fin w) <-> s <> 1).
Proof.
  intros s i dt v Hs Hdt Hv. pose proof (Rinv_0_lt_compat dt Hdt) as Hi.
  assert (L : s < 1 -> 0 < line_mrr s dt) by (intros H; apply Rdiv_lt_0_compat; auto; assert (ln s < 0) by (rewrite <- ln_1; apply ln_increasing; auto); lra).
  assert (G : 1 < s -> line_mrr s dt < 0) by (intros H; unfold line_mrr, Rdiv; assert (0 < ln s) by (rewrite <- ln_1; apply ln_increasing; lra); nra).
  assert (E : s = 1 -> line_mrr s dt = 0) by (intros ->; unfold line_mrr; rewrite ln_1; unfold Rdiv; ring).
  destruct (Rtotal_order s 1) as [H|[H|H]].
  - specialize (L H). repeat split; intros; try lra; unfold line_vol, line_mean; rewrite (proj2 (reqb_false s 1)) by lra; eauto. eexists. split; [reflexivity|apply sqrt_pos].
  - specialize (E H). subst s. repeat split; intros K; try lra; destruct K as (w & K); unfold line_vol, line_mean in K; rewrite (proj2 (reqb_true 1 1)) in K by auto.
    + destruct K; discriminate.
    + destruct (rltb 0 i); [discriminate|]. destruct (rltb i 0); discriminate.
  - specialize (G H). repeat split; intros; try lra; unfold line_vol, line_mean; rewrite (proj2 (reqb_false s 1)) by lra; eauto. eexists. split; [reflexivity|apply sqrt_pos].
Qed.
Print Assumptions C103_signs.

(** exactly linear points *)
Lemma exact_line : forall x s i, (3 <= length x)%nat -> 1 / 100000000 < s -> (exists a b, In a (removelast x) /\ In b (removelast x) /\ a <> b) ->
  tl x = map (fun a => s * a + i) (removelast x) -> used_line x s i /\ rvar 1 (residuals_of s i (lagged x)) = 0.
Proof.
  intros x s i Hl Ht (u & w & Hu & Hw & Huw) E.
  assert (P : forall p, In p (lagged x) -> snd p - (s * fst p + i) = 0).
  { unfold lagged. rewrite E. intros p Hp. clear - Hp. induction (removelast x) as [|a l IH]; [contradiction|]. cbn in Hp. destruct Hp as [<-|Hp]; [cbn; ring|auto]. }
  assert (Z : sq_error s i (lagged x) = 0) by (unfold sq_error; rewrite (rsum_ext _ _ (fun _ => 0)); [rewrite rsum_const; ring|]; intros p Hp; rewrite (P p Hp); ring).
  split.
  - exists s, i. split; [|left; auto]. split; [intros a b; rewrite Z; apply sq_error_nonneg|]. intros a b EE. rewrite Z in EE.
    assert (Q : forall p, In p (lagged x) -> snd p - (a * fst p + b) = 0).
    { unfold sq_error in EE. revert EE. generalize (lagged x) as l. induction l as [|q l IH]; [contradiction|]. cbn [map rsum fold_right]. intros EE p Hp.
      assert (0 <= sq_error a b l) as N by apply sq_error_nonneg. unfold sq_error in N. change (fold_right Rplus 0 (map (fun p => (snd p - (a * fst p + b)) ^ 2) l)) with (rsum (map (fun p => (snd p - (a * fst p + b)) ^ 2) l)) in EE.
      pose proof (pow2_ge_0 (snd q - (a * fst q + b))). destruct Hp as [<-|Hp]; [apply Rsqr_0_uniq; rewrite Rsqr_pow2; lra|apply IH; auto; lra]. }
    assert (In2 : forall u, In u (removelast x) -> exists p, In p (lagged x) /\ fst p = u) by (intros u' H'; rewrite <- lagged_fst in H'; apply in_map_iff in H' as (p & <- & Hp); eauto).
    destruct (In2 u Hu) as (p & Hp & Ep). destruct (In2 w Hw) as (q & Hq & Eq). pose proof (P p Hp). pose proof (P q Hq). pose proof (Q p Hp). pose proof (Q q Hq). rewrite Ep in *. rewrite Eq in *.
    assert ((a - s) * (u - w) = 0) by lra. assert (a = s) by (apply Rmult_integral in H3; destruct H3; lra). subst a. assert (b = i) by lra. subst b. apply Rle_refl.
  - assert (R0 : residuals_of s i (lagged x) = map (fun _ => 0) (lagged x)) by (unfold residuals_of; apply map_ext_in; exact P).
    rewrite R0. unfold rvar. rewrite map_map. rewrite (rsum_ext _ _ (fun _ => 0)).
    + rewrite rsum_const. unfold Rdiv. ring.
    + intros a _. unfold rmean. rewrite rsum_const. unfold Rdiv. ring.
Qed.
Lemma tl_seq : forall (f : nat -> R) n, tl (map f (seq 0 (n + 1))) = map (fun t => f (S t)) (seq 0 n).
Proof. intros f n. rewrite Nat.add_1_r. cbn [seq map tl]. rewrite <- seq_shift, map_map. reflexivity. Qed.
Lemma removelast_seq : forall (f : nat -> R) n, removelast (map f (seq 0 (n + 1))) = map f (seq 0 n).
Proof. intros f n. rewrite seq_app, map_app. cbn [seq map]. apply removelast_last. Qed.

(** A series moving away from or towards m by the factor q per step: mean m, vol 0 and mrr - ln q / dt; growth (q > 1) is reported as a
    negative mean reversion rate, without an error. *)
Theorem C103_geometric : forall m c q n infer chol o dt, c <> 0 -> 1 / 100000000 < q -> q <> 1 -> (2 <= n)%nat -> 0 < dt ->
  let (fitted, outcome) := fit infer (ou_fit_np chol) o (DNp1 (fins (map (fun t => m + c * q ^ t) (seq 0 (n + 1))))) (Some (Fin dt)) in
  outcome = Ok tt /\ ou_mean (o_par fitted) = Scal (Fin m) /\ ou_mrr (o_par fitted) = Scal (Fin (- ln q / dt)) /\ ou_vol (o_par fitted) = Row [Fin 0].
Proof.
  intros m c q n infer chol o dt Hc Hq Hq1 Hn Hdt. set (x := map (fun t => m + c * q ^ t) (seq 0 (n + 1))).
  assert (Lx : (3 <= length x)%nat) by (unfold x; rewrite map_length, seq_length; lia).
  destruct (C103_every_series x Lx) as (s & i & U & UU & F). specialize (F infer chol o dt Hdt).
  destruct (exact_line x q (m * (1 - q)) Lx Hq) as (U' & V).
  { unfold x. rewrite removelast_seq. exists (m + c * q ^ 0), (m + c * q ^ 1). split; [apply (in_map (fun t => m + c * q ^ t)), in_seq; lia|]. split; [apply (in_map (fun t => m + c * q ^ t)), in_seq; lia|].
    cbn [pow]. intros E. assert (E' : c * (1 - q) = 0) by lra. apply Rmult_integral in E'. lra. }
  { unfold x. rewrite tl_seq, removelast_seq, map_map. apply map_ext. intros t. cbn [pow]. ring. }
  destruct (UU _ _ U') as [<- <-]. destruct (fit infer (ou_fit_np chol) o (DNp1 (fins x)) (Some (Fin dt))) as [fitted outcome].
  destruct F as (F1 & F2 & F3 & F4 & _). split; [exact F1|]. rewrite F2, F3, F4, V. unfold line_mean, line_vol. rewrite (proj2 (reqb_false q 1)) by auto.
  split; [do 2 f_equal; field; lra|]. split; [reflexivity|]. do 3 f_equal. replace (2 * line_mrr q dt * 0 / (1 - q ^ 2)) with 0 by (unfold Rdiv; ring). rewrite sqrt_0. reflexivity.
Qed.
Print Assumptions C103_geometric.

(** A straight line: mrr 0, infinite mean and undefined vol, without an error. *)
Theorem C103_straight_line : forall a b n infer chol o dt, b <> 0 -> (2 <= n)%nat -> 0 < dt ->
  let (fitted, outcome) := fit infer (ou_fit_np chol) o (DNp1 (fins (map (fun t => a + b * INR t) (seq 0 (n + 1))))) (Some (Fin dt)) in
  outcome = Ok tt /\ ou_mean (o_par fitted) = Scal (if rltb 0 b then PInf else NInf) /\ ou_mrr (o_par fitted) = Scal (Fin 0) /\ ou_vol (o_par fitted) = Row [NaN].
Proof.
  intros a b n infer chol o dt Hb Hn Hdt. set (x := map (fun t => a + b * INR t) (seq 0 (n + 1))).
  assert (Lx : (3 <= length x)%nat) by (unfold x; rewrite map_length, seq_length; lia).
  destruct (C103_every_series x Lx) as (s & i & U & UU & F). specialize (F infer chol o dt Hdt).
  destruct (exact_line x 1 b Lx ltac:(lra)) as (U' & V).
  { unfold x. rewrite removelast_seq. exists (a + b * INR 0), (a + b * INR 1). split; [apply (in_map (fun t => a + b * INR t)), in_seq; lia|]. split; [apply (in_map (fun t => a + b * INR t)), in_seq; lia|].
    cbn [INR]. lra. }
  { unfold x. rewrite tl_seq, removelast_seq, map_map. apply map_ext. intros t. rewrite S_INR. ring. }
  destruct (UU _ _ U') as [<- <-]. destruct (fit infer (ou_fit_np chol) o (DNp1 (fins x)) (Some (Fin dt))) as [fitted outcome].
  destruct F as (F1 & F2 & F3 & F4 & _). split; [exact F1|]. rewrite F2, F3, F4. unfold line_mean, line_vol, line_mrr. rewrite (proj2 (reqb_true 1 1)) by auto.
  split; [destruct (Rlt_or_le 0 b); [rewrite (proj2 (rltb_true 0 b)) by auto; reflexivity|]; rewrite (proj2 (rltb_false 0 b)), (proj2 (rltb_true b 0)) by lra; reflexivity|]. split; [do 2 f_equal; rewrite ln_1; unfold Rdiv; ring|reflexivity].
Qed.
Print Assumptions C103_straight_line.

(** A constant series c: mean c and vol 0, but an mrr that depends on the unit of measurement: ln (1 + 1/c^2) / dt. *)
Theorem C103_constant_series : forall c n infer chol o dt, 1 / 100000000 < c ^ 2 / (c ^ 2 + 1) -> (2 <= n)%nat -> 0 < dt ->
  let (fitted, outcome) := fit infer (ou_fit_np chol) o (DNp1 (fins (repeat c (n + 1)))) (Some (Fin dt)) in
  outcome = Ok tt /\ ou_mean (o_par fitted) = Scal (Fin c) /\ ou_mrr (o_par fitted) = Scal (Fin (ln (1 + 1 / c ^ 2) / dt)) /\ ou_vol (o_par fitted) = Row [Fin 0].
Proof.
  intros c n infer chol o dt Hc Hn Hdt. set (x := repeat c (n + 1)). assert (Lx : (3 <= length x)%nat) by (unfold x; rewrite repeat_length; lia).
  destruct (C103_every_series x Lx) as (s & i & U & UU & F). specialize (F infer chol o dt Hdt).
  assert (RM : removelast x = repeat c n) by (unfold x; rewrite repeat_app; cbn [repeat]; apply removelast_last).
  assert (TM : tl x = repeat c n) by (unfold x; rewrite Nat.add_1_r; reflexivity).
  assert (LG : lagged x = repeat (c, c) n) by (unfold lagged; rewrite RM, TM; clear; induction n; cbn; f_equal; auto).
  assert (PM : 0 < c ^ 2 + 1) by nra. assert (Hc0 : c <> 0) by (intros ->; replace (0 ^ 2 / (0 ^ 2 + 1)) with 0 in Hc by field; lra).
  assert (SE : forall a b, sq_error a b (lagged x) = INR n * (c - (a * c + b)) ^ 2).
  { intros a b. rewrite LG. unfold sq_error. clear. induction n as [|n IH]; [cbn; ring|]. rewrite S_INR. cbn [repeat map rsum fold_right fst snd].
    change (fold_right Rplus 0 ?l) with (rsum l). rewrite IH. ring. }
  assert (PN : 0 < INR n) by (apply lt_0_INR; lia). set (s1 := c ^ 2 / (c ^ 2 + 1)) in *. set (i1 := c / (c ^ 2 + 1)).
  assert (E1 : c - (s1 * c + i1) = 0) by (unfold s1, i1; field; lra). assert (E2 : s1 = i1 * c) by (unfold s1, i1; field; lra).
  assert (U' : used_line x s1 i1).
  { exists s1, i1. split; [|left; auto]. split.
    - intros a b. rewrite !SE, E1. pose proof (pow2_ge_0 (c - (a * c + b))). nra.
    - intros a b E. rewrite !SE, E1 in E. assert (F' : c - (a * c + b) = 0) by (apply Rsqr_0_uniq; rewrite Rsqr_pow2; nra).
      assert (EE : (a - i1 * c) * c + (b - i1) = 0) by nra. rewrite E2.
      replace (a ^ 2 + b ^ 2) with ((i1 * c) ^ 2 + i1 ^ 2 + (a - i1 * c) ^ 2 + (b - i1) ^ 2 + 2 * i1 * ((a - i1 * c) * c + (b - i1))) by ring. rewrite EE.
      pose proof (pow2_ge_0 (a - i1 * c)). pose proof (pow2_ge_0 (b - i1)). lra. }
  destruct (UU _ _ U') as [<- <-]. destruct (fit infer (ou_fit_np chol) o (DNp1 (fins x)) (Some (Fin dt))) as [fitted outcome].
  destruct F as (F1 & F2 & F3 & F4 & _). split; [exact F1|]. rewrite F2, F3, F4.
  assert (Hlt : s1 < 1) by (unfold s1; apply (Rmult_lt_reg_r (c ^ 2 + 1)); [lra|]; unfold Rdiv; rewrite Rmult_assoc, Rinv_l by lra; lra).
  assert (V : rvar 1 (residuals_of s1 i1 (lagged x)) = 0).
  { rewrite LG. unfold residuals_of. assert (E : map (fun p : R * R => snd p - (s1 * fst p + i1)) (repeat (c, c) n) = map (fun _ => 0) (repeat (c, c) n)).
    { apply map_ext_in. intros p Hp. apply repeat_spec in Hp. subst p. exact E1. }
    rewrite E. unfold rvar. rewrite map_map. rewrite (rsum_ext _ _ (fun _ => 0)).
    - rewrite rsum_const. unfold Rdiv. ring.
    - intros a _. unfold rmean. rewrite rsum_const. unfold Rdiv. ring. }
  rewrite V. unfold line_mean, line_vol. rewrite (proj2 (reqb_false s1 1)) by lra. assert (0 < c ^ 2) by (rewrite <- Rsqr_pow2; apply Rsqr_pos_lt; auto).
  split; [do 2 f_equal; unfold s1, i1; field; split; [lra|]; replace (c ^ 2 + 1 - c ^ 2) with 1 by ring; lra|]. split.
  - do 2 f_equal. unfold line_mrr. rewrite <- ln_Rinv by (unfold s1; apply Rdiv_lt_0_compat; lra). do 2 f_equal. unfold s1. field. split; lra.
  - do 3 f_equal. replace (2 * line_mrr s1 dt * 0 / (1 - s1 ^ 2)) with 0 by (unfold Rdiv; ring). rewrite sqrt_0. reflexivity.
Qed.
Print Assumptions C103_constant_series.

(** ** Units of measurement *)
Definition rescale (a b : R) (x : list R) : list R := map (fun v => a * v + b) x.
Lemma lagged_rescale : forall a b x, lagged (rescale a b x) = map (fun p => (a * fst p + b, a * snd p + b)) (lagged x).
Proof. intros. unfold lagged, rescale. rewrite removelast_map, tl_map. apply (combine_map _ _ (fun v => a * v + b)). Qed.
Lemma sq_error_rescale : forall a b x s i, a <> 0 -> sq_error s i (lagged (rescale a b x)) = a ^ 2 * sq_error s ((s * b + i - b) / a) (lagged x).
Proof.
  intros a b x s i Ha. rewrite lagged_rescale. unfold sq_error. rewrite map_map, <- rsum_scal. apply rsum_ext. intros [u w] _. cbn [fst snd]. field. auto.
Qed.
Lemma best_line_differ : forall x s i, (exists u w, In u (removelast x) /\ In w (removelast x) /\ u <> w) -> (forall a b, sq_error s i (lagged x) <= sq_error a b (lagged x)) -> best_line s i (lagged x).
Proof.
  intros x s i (u & w & Hu & Hw & Huw) H. split; [exact H|]. intros a b E.
  (* the midpoint would be strictly better unless both lines agree at u and at w *)
  assert (M : forall p, In p (lagged x) -> (s * fst p + i) = (a * fst p + b)).
  { assert (Q : rsum (map (fun p => ((s * fst p + i) - (a * fst p + b)) ^ 2) (lagged x)) <= 0).
    { pose proof (H ((s + a) / 2) ((i + b) / 2)) as K. unfold sq_error in *.
      assert (EQ : rsum (map (fun p => (snd p - ((s + a) / 2 * fst p + (i + b) / 2)) ^ 2) (lagged x))
        = rsum (map (fun p => / 2 * ((snd p - (s * fst p + i)) ^ 2)) (lagged x)) + (rsum (map (fun p => / 2 * ((snd p - (a * fst p + b)) ^ 2)) (lagged x)) + rsum (map (fun p => - / 4 * ((s * fst p + i) - (a * fst p + b)) ^ 2) (lagged x)))).
      { rewrite <- !rsum_plus. apply rsum_ext. intros [p q] _. cbn [fst snd]. field. }
      rewrite EQ, !rsum_scal in K. lra. }
    revert Q. generalize (lagged x) as l. induction l as [|q l IH]; [contradiction|]. cbn [map rsum fold_right]. change (fold_right Rplus 0 ?l) with (rsum l). intros Q p Hp.
    assert (0 <= rsum (map (fun p => ((s * fst p + i) - (a * fst p + b)) ^ 2) l)) by (apply rsum_nonneg; intros z Hz; apply in_map_iff in Hz as (? & <- & _); apply pow2_ge_0).
    pose proof (pow2_ge_0 (s * fst q + i - (a * fst q + b))). destruct Hp as [<-|Hp]; [|apply IH; auto; lra].
    assert (Z : s * fst q + i - (a * fst q + b) = 0) by (apply Rsqr_0_uniq; rewrite Rsqr_pow2; lra). lra. }
  assert (In2 : forall u, In u (removelast x) -> exists p, In p (lagged x) /\ fst p = u) by (intros u' H'; rewrite <- lagged_fst in H'; apply in_map_iff in H' as (p & <- & Hp); eauto).
  destruct (In2 u Hu) as (p & Hp & Ep). destruct (In2 w Hw) as (q & Hq & Eq). pose proof (M p Hp). pose proof (M q Hq). rewrite Ep in *. rewrite Eq in *.
  assert (Z : (a - s) * (u - w) = 0) by lra. assert (a = s) by (apply Rmult_integral in Z; destruct Z; lra). subst a. assert (b = i) by lra. subst b. apply Rle_refl.
Qed.
Lemma removelast_rescale : forall a b x, removelast (rescale a b x) = rescale a b (removelast x).
Proof. intros. apply removelast_map. Qed.
Lemma used_line_rescale : forall x a b s i, a <> 0 -> (3 <= length x)%nat -> (exists u w, In u (removelast x) /\ In w (removelast x) /\ u <> w) -> used_line x s i ->
  (1 / 100000000 < s -> used_line (rescale a b x) s (a * i + b * (1 - s))) /\ (s = 1 / 100000000 -> used_line (rescale a b x) s (a * i + b)).
Proof.
  intros x a b s i Ha Hl (u & w & Hu & Hw & Huw) (s0 & i0 & [B _] & D).
  assert (BY : best_line s0 (a * i0 + b * (1 - s0)) (lagged (rescale a b x))).
  { apply best_line_differ.
    - exists (a * u + b), (a * w + b). rewrite removelast_rescale. split; [apply (in_map (fun v => a * v + b)); auto|]. split; [apply (in_map (fun v => a * v + b)); auto|]. intros E. apply Huw. assert (Z : a * (u - w) = 0) by lra. apply Rmult_integral in Z. lra.
    - intros c d. rewrite !sq_error_rescale by auto. replace ((s0 * b + (a * i0 + b * (1 - s0)) - b) / a) with i0 by (field; auto). apply Rmult_le_compat_l; [apply pow2_ge_0|apply B]. }
  destruct D as [(H & -> & ->)|(H & -> & ->)].
  - split; [intros _|intros E; lra]. exists s0, (a * i0 + b * (1 - s0)). split; [exact BY|left; auto].
  - split; [intros E; lra|intros _]. exists s0, (a * i0 + b * (1 - s0)). split; [exact BY|right]. split; [auto|]. split; [auto|]. unfold rescale. rewrite tl_map.
    rewrite (map_ext _ (fun v => b + a * v)) by (intros; ring). rewrite rmean_affine, map_id by (intros E; apply (f_equal (@length _)) in E; rewrite length_tl in E; simpl in E; lia). ring.
Qed.
Lemma residuals_rescale : forall a b x s i i', (2 <= length x)%nat -> rvar 1 (residuals_of s i' (lagged (rescale a b x))) = a ^ 2 * rvar 1 (residuals_of s i (lagged x)).
Proof.
  intros a b x s i i' Hl. unfold residuals_of. rewrite lagged_rescale, map_map. cbn [fst snd].
  rewrite (map_ext _ (fun p => (b - s * b + a * i - i') + a * (snd p - (s * fst p + i)))) by (intros; ring).
  rewrite rvar_affine; [ring|]. intros E. apply (f_equal (@length _)) in E. rewrite lagged_length in E. simpl in E. lia.
Qed.

(** Measuring the series in other units, a x + b: the same mrr, the mean and vol in the new units.  (At the slope floor the shift b enters the
    mean divided by 1 - 1e-8.) *)
Theorem C103_units : forall x a b s i, (3 <= length x)%nat -> a <> 0 -> (exists u w, In u (removelast x) /\ In w (removelast x) /\ u <> w) ->
  used_line x s i -> s <> 1 -> forall infer chol o dt, 0 < dt ->
  exists m k v f f',
    fit infer (ou_fit_np chol) o (DNp1 (fins x)) (Some (Fin dt)) = (f, Ok tt)
    /\ ou_mean (o_par f) = Scal (Fin m) /\ ou_mrr (o_par f) = Scal (Fin k) /\ ou_vol (o_par f) = Row [Fin v]
    /\ fit infer (ou_fit_np chol) o (DNp1 (fins (map (fun y => a * y + b) x))) (Some (Fin dt)) = (f', Ok tt)
    /\ ou_mrr (o_par f') = Scal (Fin k) /\ ou_vol (o_par f') = Row [Fin (Rabs a * v)]
    /\ (1 / 100000000 < s -> ou_mean (o_par f') = Scal (Fin (a * m + b)))
    /\ (s = 1 / 100000000 -> ou_mean (o_par f') = Scal (Fin (a * m + b / (1 - 1 / 100000000)))).
Proof.
  intros x a b s i Hl Ha Hd U Hs1 infer chol o dt Hdt. change (map (fun y => a * y + b) x) with (rescale a b x). pose proof (used_line_pos _ _ _ U) as Hs0.
  destruct (C103_every_series x Hl) as (s1 & i1 & _ & Q1 & F1). destruct (Q1 _ _ U) as [<- <-]. specialize (F1 infer chol o dt Hdt).
  destruct (C103_every_series (rescale a b x)) as (s2 & i2 & _ & Q2 & F2); [unfold rescale; rewrite map_length; auto|]. specialize (F2 infer chol o dt Hdt).
  destruct (fit infer (ou_fit_np chol) o (DNp1 (fins x)) (Some (Fin dt))) as [f r] eqn:Ef. destruct (fit infer (ou_fit_np chol) o (DNp1 (fins (rescale a b x))) (Some (Fin dt))) as [f' r'] eqn:Ef'.
  destruct F1 as (-> & M1 & K1 & V1 & _). destruct F2 as (-> & M2 & K2 & V2 & _).
  destruct (used_line_rescale x a b s i Ha Hl Hd U) as [R1 R2].
  assert (ES : s = s2 /\ (1 / 100000000 < s -> i2 = a * i + b * (1 - s)) /\ (s = 1 / 100000000 -> i2 = a * i + b)).
  { assert (C : 1 / 100000000 < s \/ s = 1 / 100000000) by (destruct U as (s0 & i0 & _ & [(H & -> & _)|(H & -> & _)]); [left; auto|right; auto]).
    destruct C as [C|C]; [destruct (Q2 _ _ (R1 C)) as [E E']|destruct (Q2 _ _ (R2 C)) as [E E']]; (split; [exact E|split; intros; try lra; auto]). }
  destruct ES as (<- & I1 & I2). exists (i / (1 - s)), (line_mrr s dt), (sqrt (2 * line_mrr s dt * rvar 1 (residuals_of s i (lagged x)) / (1 - s ^ 2))), f, f'.
  assert (NE : reqb s 1 = false) by (apply reqb_false; auto). unfold line_mean, line_vol in *. rewrite NE in *.
  assert (PV : 0 <= rvar 1 (residuals_of s i (lagged x))) by (apply rvar_nonneg; unfold residuals_of; rewrite map_length, lagged_length; lia).
  split; [reflexivity|]. split; [exact M1|]. split; [exact K1|]. split; [exact V1|]. split; [reflexivity|]. split; [exact K2|]. split; [|split].
  - rewrite V2. do 3 f_equal. rewrite (residuals_rescale a b x s i) by lia. assert (s ^ 2 <> 1) by nra.
    replace (2 * line_mrr s dt * (a ^ 2 * rvar 1 (residuals_of s i (lagged x))) / (1 - s ^ 2)) with (Rsqr a * (2 * line_mrr s dt * rvar 1 (residuals_of s i (lagged x)) / (1 - s ^ 2))) by (unfold Rsqr; field; lra).
    rewrite sqrt_mult by (try apply Rle_0_sqr; apply vol_radicand; auto). rewrite sqrt_Rsqr_abs. reflexivity.
  - intros C. rewrite M2, (I1 C). do 2 f_equal. field. lra.
  - intros C. rewrite M2, (I2 C), C. do 2 f_equal. field.
Qed.
Print Assumptions C103_units.

(** Concrete cases: 0, 1, 1, 2 has the line x / 2 + 1; the alternation 0, 1, 0 meets the slope floor. *)
Example C103_example_line : used_line [0; 1; 1; 2] (1 / 2) 1 /\ used_line [0; 1; 0] (1 / 100000000) (1 / 2).
Proof.
  assert (B1 : best_line (1 / 2) 1 (lagged [0; 1; 1; 2])).
  { apply best_line_differ; [exists 0, 1; cbn; repeat split; auto; lra|]. intros a b. unfold lagged, sq_error. cbn [removelast tl combine map rsum fold_right fst snd].
    pose proof (pow2_ge_0 (1 - b)). pose proof (pow2_ge_0 (a + b - 3 / 2)). nra. }
  assert (B2 : best_line (-1) 1 (lagged [0; 1; 0])).
  { apply best_line_differ; [exists 0, 1; cbn; repeat split; auto; lra|]. intros a b. unfold lagged, sq_error. cbn [removelast tl combine map rsum fold_right fst snd].
    pose proof (pow2_ge_0 (1 - (a * 0 + b))). pose proof (pow2_ge_0 (0 - (a * 1 + b))). nra. }
  split; [exists (1 / 2), 1; split; [exact B1|left; lra]|]. exists (-1), 1. split; [exact B2|right]. repeat split; try lra. unfold rmean. cbn. lra.
Qed.
