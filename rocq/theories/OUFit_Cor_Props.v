(** Property C104: fitting the Ornstein-Uhlenbeck model to several series. *)
From Coq Require Import Reals Lra String ZArith List Arith Bool Lia FunctionalExtensionality Classical_Prop.
From Verif Require Import Base Num Sums Lin Sim_Model Sim_Spec Sim_Proofs Sim_Fit_Proofs Sim_Fit_Props Chol_Model Chol_Proofs Feat_Proofs Sim_Props Sim_Cor_Spec Sim_Cor_Props Sim_Cor_Nll_Props Sim_Cor_Fit_Props Sim_OU_Props OUFit_Spec OUFit_Props.
Import ListNotations.
Open Scope R_scope.

(** series v of the data, and the residuals of its line *)
Definition series (n : nat) (x : nat -> nat -> R) (v : nat) : list R := map (fun t => x t v) (seq 0 (n + 1)).
Definition resid (x : nat -> nat -> R) (s i : nat -> R) (t v : nat) : R := x (t + 1)%nat v - (s v * x t v + i v).

Lemma residuals_series : forall n x v s i, residuals_of (s v) (i v) (lagged (series n x v)) = map (fun t => resid x s i t v) (seq 0 n).
Proof.
  intros n x v s i. unfold residuals_of, lagged, series. rewrite (removelast_seq (fun t => x t v)), (tl_seq (fun t => x t v)). rewrite Sim_Cor_Fit_Props.combine_map, map_map.
  apply map_ext. intros t. cbn [fst snd]. unfold resid. rewrite Nat.add_1_r. reflexivity.
Qed.
Lemma moves_of_independent : forall n m f v, independent n m f -> (v < m)%nat -> moves n f v.
Proof.
  intros n m f v HI Hv. destruct (HI (fun i => if Nat.eqb i v then 1 else 0)) as (t & t' & Ht & Ht' & Hne); [exists v; split; [auto|rewrite Nat.eqb_refl; lra]|]. exists t, t'. split; [auto|]. split; [auto|].
  intros E. apply Hne. assert (G : forall u, sumn m (fun i => (if Nat.eqb i v then 1 else 0) * f u i) = f u v).
  { intros u. rewrite (S_single m _ v Hv); [rewrite Nat.eqb_refl; ring|]. intros i _ Hi. rewrite (proj2 (Nat.eqb_neq i v)) by auto. ring. }
  rewrite !G. exact E.
Qed.
(** a pivot that is not a number *)
Lemma nsub_nan : forall y, nsub NaN y = NaN.
Proof. destruct y; reflexivity. Qed.
Lemma chol_cols_nan : forall a k v, (v < k)%nat -> a v v = NaN -> chol_cols a k = Raise LinAlgError.
Proof.
  intros a k v Hv Ha. induction k as [|k IH]; [lia|]. cbn [chol_cols]. destruct (Nat.eq_dec v k) as [->|Hne]; [|rewrite IH by lia; reflexivity].
  clear IH. assert (E : (exists L, chol_cols a k = Ok L) \/ chol_cols a k = Raise LinAlgError).
  { clear. induction k as [|k IH]; [left; cbn; eauto|]. cbn [chol_cols]. destruct IH as [(L & ->)| ->]; [|right; reflexivity]. cbn [bind]. destruct (ngtb _ _); eauto. }
  destruct E as [(L & ->)| ->]; [|reflexivity]. cbn [bind]. rewrite Ha, nsub_nan. reflexivity.
Qed.
Lemma corrcoef_nan : forall dx n m f v, nrow dx = n -> ncol dx = m -> (2 <= n)%nat -> (forall t v, (t < n)%nat -> (v < m)%nat -> at2 dx t v = Fin (f t v)) -> (v < m)%nat -> ~ moves n f v -> at2 (corrcoef dx) v v = NaN.
Proof.
  intros dx n m f v Hr Hc Hn Hf Hv N. unfold corrcoef. cbn [at2].
  assert (Hcol : col dx v = fins (map (fun t => f t v) (seq 0 n))).
  { unfold col, fins. rewrite map_map, Hr. apply map_ext_in. intros t Ht. apply in_seq in Ht. apply Hf; auto; lia. }
  rewrite !Hcol, !ncov_seq by auto. rewrite (proj2 (s_cov_pos n f v Hn) N). rewrite nsqrt_fin by lra. rewrite sqrt_0. unfold ndiv at 2. rewrite (proj2 (reqb_true 0 0)) by auto.
  unfold sgn_inf. rewrite (proj2 (rltb_false 0 0)) by lra. reflexivity.
Qed.
Lemma chol_corrcoef : forall dx n m f, nrow dx = n -> ncol dx = m -> (2 <= n)%nat -> (0 < m)%nat -> (forall t v, (t < n)%nat -> (v < m)%nat -> at2 dx t v = Fin (f t v)) ->
  (independent n m f -> exists l, np_cholesky (corrcoef dx) = Ok (farr m m l) /\ meq m (s_cor n f) (mmul m l (mtr l)))
  /\ (~ independent n m f -> np_cholesky (corrcoef dx) = Raise LinAlgError).
Proof.
  intros dx n m f Hr Hc Hn Hm Hf. split.
  - intros HI. assert (M : forall v, (v < m)%nat -> moves n f v) by (intros v Hv; apply (moves_of_independent n m); auto).
    assert (HC : posdef m (s_cor n f)) by (apply posdef_s_cor; auto). destruct (proj1 (np_cholesky_spec m _ (proj1 HC)) HC) as (l & El & _ & _ & EC).
    exists l. split; [|exact EC]. rewrite (np_cholesky_ext (corrcoef dx) (farr m m (s_cor n f)) m); [exact El|cbn; auto|cbn; auto|reflexivity|reflexivity|].
    intros i j Hij Hi. rewrite (corrcoef_get dx n m f) by (auto; try lia; apply M; lia). reflexivity.
  - intros HI. destruct (classic (exists v, (v < m)%nat /\ ~ moves n f v)) as [(v & Hv & N)|N].
    + unfold np_cholesky. cbn [corrcoef nrow ncol]. rewrite Nat.eqb_refl. rewrite (chol_cols_nan _ _ v); [reflexivity|lia|]. apply (corrcoef_nan dx n m f); auto.
    + assert (M : forall v, (v < m)%nat -> moves n f v) by (intros v Hv; apply NNPP; intros X; apply N; eauto).
      assert (HC : ~ posdef m (s_cor n f)) by (intros X; apply HI; apply posdef_s_cor; auto).
      assert (SY : symmetric m (s_cor n f)).
      { intros i j _ _. unfold mtr, s_cor. rewrite (Rmult_comm (sqrt (s_cov n f j j))). f_equal. unfold s_cov. f_equal. apply S_ext. intros; ring. }
      rewrite (np_cholesky_ext (corrcoef dx) (farr m m (s_cor n f)) m); [exact (proj2 (np_cholesky_spec m _ SY) HC)|cbn; auto|cbn; auto|reflexivity|reflexivity|].
      intros i j Hij Hi. rewrite (corrcoef_get dx n m f) by (auto; try lia; apply M; lia). reflexivity.
Qed.
Lemma mapM_seq : forall A (g : nat -> res A) (h : nat -> A) k j, (forall v, (k <= v < k + j)%nat -> g v = Ok (h v)) -> mapM g (seq k j) = Ok (map h (seq k j)).
Proof.
  intros A g h k j. revert k. induction j as [|j IH]; intros k H; [reflexivity|]. cbn [seq mapM map]. rewrite H by lia. cbn [bind]. rewrite IH by (intros; apply H; lia). reflexivity.
Qed.
Lemma choose2 : forall m (P : nat -> R -> R -> Prop), (forall v, (v < m)%nat -> exists s i, P v s i) -> exists s i : nat -> R, forall v, (v < m)%nat -> P v (s v) (i v).
Proof.
  induction m as [|m IH]; intros P H; [exists (fun _ => 0), (fun _ => 0); intros; lia|]. destruct (IH P) as (s & i & E); [intros; apply H; lia|]. destruct (H m ltac:(lia)) as (s0 & i0 & E0).
  exists (fun v => if Nat.eqb v m then s0 else s v), (fun v => if Nat.eqb v m then i0 else i v). intros v Hv. destruct (Nat.eqb_spec v m) as [->|Hne]; [exact E0|apply E; lia].
Qed.

(* ------------------------------------------------------------------ *)
(** ** C104 *)

(** m >= 2 series of n + 1 finite values: which outcome, and every parameter found. *)
Theorem C104_outcome : forall infer (o : obj oupar) a x n m dt, (2 <= n)%nat -> (2 <= m)%nat -> 0 < dt -> observed a n m x ->
  exists s i : nat -> R, (forall v, (v < m)%nat -> used_line (series n x v) (s v) (i v))
  /\ let r := resid x s i in let last := (m - 1)%nat in
     let (fitted, outcome) := fit infer (ou_fit_np np_cholesky) o (DNp2 a) (Some (Fin dt)) in
     (independent n m r -> outcome = Ok tt
        /\ ou_mean (o_par fitted) = Scal (line_mean (s last) (i last)) /\ ou_mrr (o_par fitted) = Scal (Fin (line_mrr (s last) dt))
        /\ ou_vol (o_par fitted) = Row (map (fun v => line_vol (s last) dt (s_cov n r v v)) (seq 0 m))
        /\ (exists c, ou_cor (o_par fitted) = Some c /\ nrow c = m /\ ncol c = m /\ forall j k, (j < m)%nat -> (k < m)%nat -> at2 c j k = Fin (s_cor n r j k))
        /\ exists l, ou_L (o_par fitted) = Some (farr m m l) /\ meq m (s_cor n r) (mmul m l (mtr l)))
     /\ (~ independent n m r -> outcome = Raise LinAlgError
        /\ ou_mean (o_par fitted) = ou_mean (o_par o) /\ ou_mrr (o_par fitted) = ou_mrr (o_par o) /\ ou_vol (o_par fitted) = ou_vol (o_par o) /\ ou_L (o_par fitted) = ou_L (o_par o)
        /\ ou_cor (o_par fitted) <> None).
Proof.
  intros infer o a x n m dt Hn Hm Hdt (Hr & Hc & Hx).
  assert (Hcol : forall v, (v < m)%nat -> col a v = fins (series n x v)).
  { intros v Hv. unfold col, fins, series. rewrite map_map, Hr. apply map_ext_in. intros t Ht. apply in_seq in Ht. apply Hx; auto; lia. }
  assert (Ls : forall v, length (series n x v) = (n + 1)%nat) by (intros v; unfold series; rewrite map_length, seq_length; reflexivity).
  destruct (choose2 m (fun v s i => used_line (series n x v) s i /\ ou_fit_col a v = Ok (Fin s, Fin i, fins (residuals_of s i (lagged (series n x v)))))) as (s & i & U).
  { intros v Hv. apply (ou_fit_col_used a v); [auto|rewrite Ls; lia]. }
  exists s, i. split; [intros v Hv; apply U; auto|]. cbv zeta. set (r := resid x s i). unfold fit. rewrite preprocess_np2 by lia. unfold ou_fit_np. rewrite Hc.
  set (h := fun v => (Fin (s v), Fin (i v), fins (map (fun t => r t v) (seq 0 n)))).
  rewrite (mapM_seq _ _ h 0 m) by (intros v Hv; rewrite (proj2 (U v ltac:(lia))), residuals_series; reflexivity).
  set (res := mkArr (nrow a - 1) m (fun t j => nth t (snd (nth j (map h (seq 0 m)) (NaN, NaN, []))) NaN)).
  assert (R1 : nrow res = n) by (cbn; lia). assert (R2 : ncol res = m) by reflexivity.
  assert (R3 : forall t v, (t < n)%nat -> (v < m)%nat -> at2 res t v = Fin (r t v)).
  { intros t v Ht Hv. cbn [res at2]. rewrite (nth_indep _ _ (h 0%nat)) by (rewrite map_length, seq_length; auto). rewrite map_nth, seq_nth by auto. cbn [h snd Nat.add].
    unfold fins. rewrite (nth_indep _ _ (Fin 0)) by (rewrite !map_length, seq_length; auto). rewrite map_nth. f_equal. rewrite nth_map_seq by auto. reflexivity. }
  destruct (chol_corrcoef res n m r R1 R2 Hn ltac:(lia) R3) as [CI CN]. destruct (Nat.ltb_spec 1 m) as [_|]; [|lia].
  assert (RV : rev (map h (seq 0 m)) = h (m - 1)%nat :: rev (map h (seq 0 (m - 1)))).
  { replace m with (m - 1 + 1)%nat at 1 by lia. rewrite seq_app, map_app, rev_app_distr. reflexivity. }
  assert (RV' : exists q, rev (map h (seq 0 m)) = (Fin (s (m - 1)%nat), Fin (i (m - 1)%nat), fins (map (fun t => r t (m - 1)%nat) (seq 0 n))) :: q) by (eexists; exact RV).
  clear RV. destruct RV' as (q & RV). pose proof (used_line_pos _ _ _ (proj1 (U (m - 1)%nat ltac:(lia)))) as Hs.
  destruct (classic (independent n m r)) as [HI|HI].
  - destruct (CI HI) as (l & El & Ml). rewrite El, RV. cbn [o_par fst snd]. split; [intros _|intros X; contradiction].
    cbn [ou_mean ou_mrr ou_vol ou_cor ou_L]. rewrite mrr_fin, mean_fin by auto. split; [reflexivity|]. split; [reflexivity|]. split; [reflexivity|]. split; [|split].
    + f_equal. rewrite map_map. apply map_ext. intros v. cbn [h snd]. rewrite vol_fin by (auto; rewrite map_length, seq_length; auto). rewrite s_cov_var. reflexivity.
    + eexists. split; [reflexivity|]. split; [exact R2|]. split; [exact R2|]. intros j k Hj Hk. apply (corrcoef_get res n m r); auto; apply (moves_of_independent n m); auto.
    + exists l. split; [reflexivity|exact Ml].
  - rewrite (CN HI). cbn [o_par]. split; [intros X; contradiction|intros _]. cbn [ou_mean ou_mrr ou_vol ou_cor ou_L]. repeat split; try reflexivity. discriminate.
Qed.
Print Assumptions C104_outcome.

(** At most as many steps as series: the fit never succeeds. *)
Theorem C104_too_few_rows : forall infer (o : obj oupar) a x n m dt, (2 <= n)%nat -> (n <= m)%nat -> 0 < dt -> observed a n m x ->
  snd (fit infer (ou_fit_np np_cholesky) o (DNp2 a) (Some (Fin dt))) = Raise LinAlgError.
Proof.
  intros infer o a x n m dt Hn Hnm Hdt HO. destruct (C104_outcome infer o a x n m dt Hn ltac:(lia) Hdt HO) as (s & i & _ & F). cbv zeta in F.
  destruct (fit infer (ou_fit_np np_cholesky) o (DNp2 a) (Some (Fin dt))) as [f r]. cbn [snd]. apply F. apply too_few; lia.
Qed.
Print Assumptions C104_too_few_rows.

(** A series that follows its line exactly, for example one without noise, makes the fit of all of them fail. *)
Theorem C104_exact_series : forall infer (o : obj oupar) a x n m dt v q b, (2 <= n)%nat -> (2 <= m)%nat -> 0 < dt -> observed a n m x -> (v < m)%nat ->
  1 / 100000000 < q -> (exists t t', (t < n)%nat /\ (t' < n)%nat /\ x t v <> x t' v) -> (forall t, (t < n)%nat -> x (t + 1)%nat v = q * x t v + b) ->
  snd (fit infer (ou_fit_np np_cholesky) o (DNp2 a) (Some (Fin dt))) = Raise LinAlgError.
Proof.
  intros infer o a x n m dt v q b Hn Hm Hdt HO Hv Hq (t1 & t2 & H1 & H2 & H12) HE. destruct (C104_outcome infer o a x n m dt Hn Hm Hdt HO) as (s & i & U & F). cbv zeta in F.
  destruct (fit infer (ou_fit_np np_cholesky) o (DNp2 a) (Some (Fin dt))) as [f r]. cbn [snd]. apply F. intros HI. apply (moves_of_independent n m _ v) in HI; auto.
  assert (Ls : length (series n x v) = (n + 1)%nat) by (unfold series; rewrite map_length, seq_length; reflexivity).
  destruct (exact_line (series n x v) q b) as (U' & _); auto; [lia| | |].
  { unfold series. rewrite (removelast_seq (fun t => x t v)). exists (x t1 v), (x t2 v). split; [apply (in_map (fun t => x t v)), in_seq; lia|]. split; [apply (in_map (fun t => x t v)), in_seq; lia|]. exact H12. }
  { unfold series. rewrite (tl_seq (fun t => x t v)), (removelast_seq (fun t => x t v)), map_map. apply map_ext_in. intros t Ht. apply in_seq in Ht. rewrite <- Nat.add_1_r. apply HE. lia. }
  destruct (used_line_unique _ _ _ _ _ (U v Hv) U') as [E1 E2]. destruct HI as (t & t' & Ht & Ht' & Hne). apply Hne. unfold resid. rewrite E1, E2, !HE by auto. ring.
Qed.
Print Assumptions C104_exact_series.

(** ** The volatility of a series fitted with others *)
Lemma ln_lt : forall x, 0 < x -> x <> 1 -> ln x < x - 1.
Proof.
  intros x Hx Hn. destruct (Req_dec (ln x) 0) as [E|N]; [exfalso; apply Hn; rewrite <- (exp_ln x Hx), E; apply exp_0|].
  pose proof (exp_ineq1 (ln x) N) as K. rewrite exp_ln in K by auto. lra.
Qed.
Lemma ln_tangent : forall u w, 0 < u -> 0 < w -> w <> u -> ln w < ln u + (w - u) / u.
Proof.
  intros u w Hu Hw N. assert (P : 0 < w / u) by (apply Rdiv_lt_0_compat; auto). pose proof (ln_lt (w / u) P) as K. unfold Rdiv in K at 2. rewrite ln_mult, ln_Rinv in K by (auto; apply Rinv_0_lt_compat; auto).
  assert (w / u <> 1) by (intros E; apply N; apply (f_equal (fun z => z * u)) in E; unfold Rdiv in E; rewrite Rmult_assoc, Rinv_l in E by lra; lra). specialize (K H).
  replace ((w - u) / u) with (w / u - 1) by (field; lra). lra.
Qed.
Lemma chord_decreasing : forall u w, 0 < u -> u < w -> u <> 1 -> w <> 1 -> ln w / (w - 1) < ln u / (u - 1).
Proof.
  intros u w Hu Huw Nu Nw. destruct (Rlt_or_le u 1) as [L|G].
  - destruct (Rlt_or_le w 1) as [L'|G'].
    + pose proof (ln_tangent w u ltac:(lra) Hu ltac:(lra)) as T1. pose proof (ln_tangent w 1 ltac:(lra) ltac:(lra) ltac:(lra)) as T2. rewrite ln_1 in T2.
      apply (Rmult_lt_reg_r ((w - 1) * (u - 1))); [nra|]. replace (ln w / (w - 1) * ((w - 1) * (u - 1))) with (ln w * (u - 1)) by (field; lra). replace (ln u / (u - 1) * ((w - 1) * (u - 1))) with (ln u * (w - 1)) by (field; lra).
      assert (A : (1 - w) * ln u < (1 - w) * (ln w + (u - w) / w)) by (apply Rmult_lt_compat_l; lra). assert (B : (w - u) * 0 < (w - u) * (ln w + (1 - w) / w)) by (apply Rmult_lt_compat_l; lra).
      assert (C : (1 - w) * ((u - w) / w) + (w - u) * ((1 - w) / w) = 0) by (field; lra). nra.
    + apply Rlt_trans with 1.
      * pose proof (ln_lt w ltac:(lra) Nw). apply (Rmult_lt_reg_r (w - 1)); [lra|]. unfold Rdiv. rewrite Rmult_assoc, Rinv_l by lra. lra.
      * pose proof (ln_lt u Hu Nu). apply (Rmult_lt_reg_r (1 - u)); [lra|]. replace (ln u / (u - 1) * (1 - u)) with (- ln u) by (field; lra). lra.
  - pose proof (ln_tangent u w ltac:(lra) ltac:(lra) ltac:(lra)) as T1. pose proof (ln_tangent u 1 ltac:(lra) ltac:(lra) ltac:(lra)) as T2. rewrite ln_1 in T2.
    apply (Rmult_lt_reg_r ((w - 1) * (u - 1))); [nra|]. replace (ln w / (w - 1) * ((w - 1) * (u - 1))) with (ln w * (u - 1)) by (field; lra). replace (ln u / (u - 1) * ((w - 1) * (u - 1))) with (ln u * (w - 1)) by (field; lra).
    assert (A : (u - 1) * ln w < (u - 1) * (ln u + (w - u) / u)) by (apply Rmult_lt_compat_l; lra). assert (B : (w - u) * 0 < (w - u) * (ln u + (1 - u) / u)) by (apply Rmult_lt_compat_l; lra).
    assert (C : (u - 1) * ((w - u) / u) + (w - u) * ((1 - u) / u) = 0) by (field; lra). nra.
Qed.
Lemma vol_factor_injective : forall s s', 0 < s -> 0 < s' -> s <> 1 -> s' <> 1 -> - ln s / (1 - s ^ 2) = - ln s' / (1 - s' ^ 2) -> s = s'.
Proof.
  assert (G : forall s, 0 < s -> s <> 1 -> - ln s / (1 - s ^ 2) = ln (s ^ 2) / (s ^ 2 - 1) / 2).
  { intros s Hs N. replace (s ^ 2) with (s * s) by ring. rewrite ln_mult by auto. field. split; nra. }
  intros s s' Hs Hs' N N' E. rewrite !G in E by auto. destruct (Rtotal_order s s') as [L|[L|L]]; [|exact L|]; exfalso.
  - pose proof (chord_decreasing (s ^ 2) (s' ^ 2) ltac:(nra) ltac:(nra) ltac:(nra) ltac:(nra)). lra.
  - pose proof (chord_decreasing (s' ^ 2) (s ^ 2) ltac:(nra) ltac:(nra) ltac:(nra) ltac:(nra)). lra.
Qed.

(** The volatility of series v in a fit of several is the one of a fit of series v alone only if v has the slope of the last series. *)
Theorem C104_volatility : forall infer (o o1 : obj oupar) a x n m dt fitted v s i s' i', (2 <= n)%nat -> (2 <= m)%nat -> 0 < dt -> observed a n m x -> (v < m)%nat ->
  used_line (series n x v) s i -> used_line (series n x (m - 1)) s' i' -> s <> 1 -> s' <> 1 ->
  fit infer (ou_fit_np np_cholesky) o (DNp2 a) (Some (Fin dt)) = (fitted, Ok tt) ->
  exists together alone, ou_vol (o_par fitted) = Row together
    /\ ou_vol (o_par (fst (fit infer (ou_fit_np np_cholesky) o1 (DNp1 (fins (series n x v))) (Some (Fin dt))))) = Row [alone]
    /\ (nth v together NaN = alone <-> s = s').
Proof.
  intros infer o o1 a x n m dt fitted v s i s' i' Hn Hm Hdt HO Hv U U' N N' HF. destruct (C104_outcome infer o a x n m dt Hn Hm Hdt HO) as (ss & ii & UU & F). cbv zeta in F. rewrite HF in F.
  destruct (used_line_unique _ _ _ _ _ (UU v Hv) U) as [E1 E2]. destruct (used_line_unique _ _ _ _ _ (UU (m - 1)%nat ltac:(lia)) U') as [E3 E4].
  destruct F as [F1 F2]. destruct (classic (independent n m (resid x ss ii))) as [HI|HI]; [|destruct (F2 HI) as (X & _); discriminate].
  destruct (F1 HI) as (_ & _ & _ & V & _). rewrite E3 in V.
  assert (Ls : length (series n x v) = (n + 1)%nat) by (unfold series; rewrite map_length, seq_length; reflexivity).
  destruct (C103_every_series (series n x v) ltac:(lia)) as (s1 & i1 & _ & Q & G). destruct (Q _ _ U) as [<- <-]. specialize (G infer np_cholesky o1 dt Hdt).
  destruct (fit infer (ou_fit_np np_cholesky) o1 (DNp1 (fins (series n x v))) (Some (Fin dt))) as [f1 r1]. destruct G as (_ & _ & _ & G & _). cbn [fst].
  eexists; eexists. split; [exact V|]. split; [exact G|].
  assert (EQ : rvar 1 (residuals_of s i (lagged (series n x v))) = s_cov n (resid x ss ii) v v) by (rewrite <- E1, <- E2, residuals_series, s_cov_var; reflexivity).
  rewrite EQ, nth_map_seq by auto. set (c := s_cov n (resid x ss ii) v v). assert (Pc : 0 < c) by (apply s_cov_pos; auto; apply (moves_of_independent n m); auto).
  split; [|intros ->; reflexivity]. unfold line_vol. rewrite (proj2 (reqb_false s 1)), (proj2 (reqb_false s' 1)) by auto. intros E. apply (f_equal real_of) in E. cbn [real_of] in E.
  pose proof (used_line_pos _ _ _ U) as Hs. pose proof (used_line_pos _ _ _ U') as Hs'.
  apply sqrt_inj in E; try (apply vol_radicand; auto; lra). unfold line_mrr in E. symmetry. apply vol_factor_injective; auto.
  assert (s ^ 2 <> 1) by nra. assert (s' ^ 2 <> 1) by nra.
  replace (2 * (- ln s / dt) * c / (1 - s ^ 2)) with (2 * c / dt * (- ln s / (1 - s ^ 2))) in E by (field; split; lra). replace (2 * (- ln s' / dt) * c / (1 - s' ^ 2)) with (2 * c / dt * (- ln s' / (1 - s' ^ 2))) in E by (field; split; lra).
  assert (P : 0 < 2 * c / dt) by (apply Rdiv_lt_0_compat; lra). apply Rmult_eq_reg_l in E; [exact E|lra].
Qed.
Print Assumptions C104_volatility.

(** The series 0, 1, 1, 2 and 0, 0, 1, 5/4: slopes 1/2 and 3/4, independent residuals, so the fit succeeds and the volatility of the first is not
    the one it has alone. *)
Definition ex_data (t v : nat) : R := match v with 0%nat => nth t [0; 1; 1; 2] 0 | _ => nth t [0; 0; 1; 5 / 4] 0 end.
Example C104_example : observed (farr 4 2 ex_data) 3 2 ex_data
  /\ used_line (series 3 ex_data 0) (1 / 2) 1 /\ used_line (series 3 ex_data 1) (3 / 4) (1 / 2)
  /\ forall infer o, snd (fit infer (ou_fit_np np_cholesky) o (DNp2 (farr 4 2 ex_data)) (Some (Fin 1))) = Ok tt.
Proof.
  assert (HO : observed (farr 4 2 ex_data) 3 2 ex_data) by (repeat split; auto).
  assert (B1 : used_line (series 3 ex_data 0) (1 / 2) 1) by exact (proj1 C103_example_line).
  assert (B2 : used_line (series 3 ex_data 1) (3 / 4) (1 / 2)).
  { exists (3 / 4), (1 / 2). split; [|left; lra]. apply best_line_differ; [exists 0, 1; cbn; repeat split; auto; lra|]. intros a b. unfold lagged, sq_error, series. cbn [ex_data Nat.add seq nth removelast tl combine map rsum fold_right fst snd].
    pose proof (pow2_ge_0 (b - 1 / 2)). pose proof (pow2_ge_0 (a + b - 5 / 4)). nra. }
  split; [exact HO|]. split; [exact B1|]. split; [exact B2|]. intros infer o.
  destruct (C104_outcome infer o (farr 4 2 ex_data) ex_data 3 2 1 ltac:(lia) ltac:(lia) ltac:(lra) HO) as (s & i & U & F). cbv zeta in F.
  destruct (fit infer (ou_fit_np np_cholesky) o (DNp2 (farr 4 2 ex_data)) (Some (Fin 1))) as [f r]. cbn [snd]. apply F.
  destruct (used_line_unique _ _ _ _ _ (U 0%nat ltac:(lia)) B1) as [E1 E2]. destruct (used_line_unique _ _ _ _ _ (U 1%nat ltac:(lia)) B2) as [E3 E4].
  assert (G : forall w t, sumn 2 (fun v => w v * resid ex_data s i t v) = w 0%nat * (ex_data (t + 1) 0 - (1 / 2 * ex_data t 0 + 1)) + w 1%nat * (ex_data (t + 1) 1 - (3 / 4 * ex_data t 1 + 1 / 2))).
  { intros w t. rewrite !S_succ, S_0. unfold resid. rewrite E1, E2, E3, E4. ring. }
  intros w (v & Hv & Hw). destruct (Req_dec (w 0%nat) (- w 1%nat)) as [Z|Z].
  - exists 0%nat, 1%nat. split; [lia|]. split; [lia|]. rewrite !G. cbn [ex_data Nat.add nth]. destruct v as [|[|v]]; [lra|lra|lia].
  - exists 0%nat, 2%nat. split; [lia|]. split; [lia|]. rewrite !G. cbn [ex_data Nat.add nth]. lra.
Qed.
