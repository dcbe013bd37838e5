(** Property C27: fitting the Ornstein-Uhlenbeck model. *)
From Coq Require Import Reals Lra String ZArith List Arith Bool Lia.
From Verif Require Import Base Num Sim_Model Sim_Spec Sim_Proofs Sim_Fit_Proofs.
Import ListNotations.
Open Scope R_scope.

(** points (x[t], x[t+1]) of a series *)
Definition lagged (x : list R) : list (R * R) := combine (removelast x) (tl x).
(** sum of squared residuals of the line a x + b *)
Definition sq_error (a b : R) (pts : list (R * R)) : R := rsum (map (fun p => (snd p - (a * fst p + b)) ^ 2) pts).
(** residuals of a line *)
Definition residuals_of (a b : R) (pts : list (R * R)) : list R := map (fun p => snd p - (a * fst p + b)) pts.

Lemma sq_error_ssq : forall a b pts, sq_error a b pts = ssq a b pts.
Proof. intros. unfold sq_error, ssq. apply rsum_ext. intros. ring. Qed.

Lemma removelast_map : forall A B (f : A -> B) l, removelast (map f l) = map f (removelast l).
Proof. induction l as [|a l IH]; auto. simpl. rewrite IH. destruct l; reflexivity. Qed.
Lemma tl_map : forall A B (f : A -> B) l, tl (map f l) = map f (tl l).
Proof. destruct l; reflexivity. Qed.
Lemma length_removelast : forall A (l : list A), length (removelast l) = (length l - 1)%nat.
Proof. induction l as [|a l IH]; auto. destruct l; auto. cbn [removelast length] in *. rewrite IH. lia. Qed.
Lemma length_tl : forall A (l : list A), length (tl l) = (length l - 1)%nat.
Proof. destruct l; simpl; lia. Qed.
Lemma combine_map : forall A B (f : A -> B) l l', combine (map f l) (map f l') = map (fun p => (f (fst p), f (snd p))) (combine l l').
Proof. induction l; destruct l'; simpl; auto. f_equal. auto. Qed.

Lemma lagged_fst : forall x, map fst (lagged x) = removelast x.
Proof. intros. apply map_fst_combine. rewrite length_removelast, length_tl. reflexivity. Qed.
Lemma lagged_snd : forall x, map snd (lagged x) = tl x.
Proof. intros. apply map_snd_combine. rewrite length_removelast, length_tl. reflexivity. Qed.
Lemma lagged_length : forall x, length (lagged x) = (length x - 1)%nat.
Proof. intros. unfold lagged. rewrite combine_length, length_removelast, length_tl. lia. Qed.

Lemma col_col_vec : forall l, col (col_vec l) 0 = l.
Proof.
  intros l. unfold col, col_vec. cbn [nrow at2]. apply nth_ext with (d := NaN) (d' := NaN); rewrite map_length, seq_length; auto.
  intros i Hi. rewrite nth_map_seq by auto. reflexivity.
Qed.

(** one column: line and residuals *)
Lemma ou_col_real : forall x, (2 <= length x)%nat ->
  (exists a b, In a (removelast x) /\ In b (removelast x) /\ a <> b) ->
  exists s i,
    (forall a b, sq_error s i (lagged x) <= sq_error a b (lagged x))
    /\ lstsq_line (fins (removelast x)) (fins (tl x)) = Ok (Fin s, Fin i)
    /\ (slope_tol < s -> ou_fit_col (col_vec (fins x)) 0 = Ok (Fin s, Fin i, fins (residuals_of s i (lagged x)))).
Proof.
  intros x Hl (u & w & Hu & Hw & Huw).
  assert (Hne : lagged x <> []) by (intros E; apply (f_equal (@length _)) in E; rewrite lagged_length in E; simpl in E; lia).
  set (mx := rmean (map fst (lagged x))). set (my := rmean (map snd (lagged x))).
  set (sxx := rsum (map (fun p => (fst p - mx) * (fst p - mx)) (lagged x))).
  set (sxy := rsum (map (fun p => (fst p - mx) * (snd p - my)) (lagged x))).
  assert (Exx : sxx = rsum (map (fun a => (a - rmean (removelast x)) * (a - rmean (removelast x))) (removelast x))).
  { unfold sxx, mx. rewrite lagged_fst. set (c := rmean (removelast x)). rewrite <- (lagged_fst x), map_map. reflexivity. }
  assert (Hs : sxx <> 0).
  { rewrite Exx. intros E. apply Huw. rewrite (sxx_zero_const _ E u Hu), (sxx_zero_const _ E w Hw). reflexivity. }
  assert (Hlst : lstsq_line (fins (removelast x)) (fins (tl x)) = Ok (Fin (sxy / sxx), Fin (my - sxy / sxx * mx))).
  { unfold lstsq_line. rewrite !forallb_fins, !map_real_of_fins. cbn [andb]. rewrite <- Exx.
    rewrite (proj2 (reqb_false sxx 0)) by auto. unfold my, mx, sxy, my, mx. rewrite lagged_fst, lagged_snd. reflexivity. }
  exists (sxy / sxx), (my - sxy / sxx * mx). split; [|split].
  - intros a b. rewrite !sq_error_ssq. apply (lstsq_min (lagged x)); auto. cbv zeta. unfold Rdiv. rewrite Rmult_assoc, Rinv_l by exact Hs. apply Rmult_1_r.
  - exact Hlst.
  - intros Ht. unfold ou_fit_col. rewrite col_col_vec. unfold fins at 1 2. rewrite removelast_map, tl_map. fold (fins (removelast x)). fold (fins (tl x)).
    rewrite Hlst. cbn [bind fst snd]. rewrite nleb_fin, (proj2 (rleb_false _ _)) by auto. cbn [fst snd].
    apply f_equal. apply f_equal2; [reflexivity|]. unfold fins, residuals_of, lagged. rewrite removelast_map, tl_map, combine_map, !map_map. apply map_ext. intros [a b]. reflexivity.
Qed.

(** One series: the fitted line is the least squares line of x[t+1] on x[t]; mean, mrr and vol are read off it. *)
Theorem C27_ou_fit_least_squares : forall x, (3 <= length x)%nat ->
  (exists a b, In a (removelast x) /\ In b (removelast x) /\ a <> b) ->
  exists s i,
    (forall a b, sq_error s i (lagged x) <= sq_error a b (lagged x))
    /\ (slope_tol < s -> s < 1 -> forall infer chol o dt, 0 < dt ->
        let (fitted, outcome) := fit infer (ou_fit_np chol) o (DNp1 (fins x)) (Some (Fin dt)) in
        outcome = Ok tt
        /\ ou_mrr (o_par fitted) = Scal (Fin (- ln s / dt))
        /\ ou_mean (o_par fitted) = Scal (Fin (i / (1 - s)))
        /\ ou_vol (o_par fitted)
           = Row [Fin (sqrt (2 * (- ln s / dt) * rvar 1 (residuals_of s i (lagged x)) / (1 - s ^ 2)))]).
Proof.
  intros x Hl Hne. destruct (ou_col_real x) as (s & i & H1 & _ & H3); [lia|auto|]. exists s, i. split; [auto|].
  intros Ht Hs1 infer chol o dt Hdt. unfold fit, preprocess_fit. cbn [to_numpy2 index_info get_date_time_index nrow ncol col_vec].
  rewrite length_fins. destruct (Nat.eqb_spec (length x) 0); [lia|].
  unfold ou_fit_np. cbn [ncol col_vec seq mapM]. fold (col_vec (fins x)). rewrite (H3 Ht). cbn [bind mapM Nat.ltb Nat.leb rev app].
  cbn [o_par ou_mrr ou_mean ou_vol map snd]. split; [reflexivity|].
  assert (H0 : 0 < s) by (unfold slope_tol in Ht; lra).
  rewrite nlog_fin by auto. cbn [nneg]. rewrite ndiv_fin by lra. rewrite nsub_fin, ndiv_fin by lra.
  split; [reflexivity|]. split; [reflexivity|].
  unfold fins. rewrite nstd_fin by (unfold residuals_of; rewrite map_length, lagged_length; lia).
  pose proof (rvar_nonneg 1 (residuals_of s i (lagged x))) as Hv.
  assert (Hv' : 0 <= rvar 1 (residuals_of s i (lagged x))) by (apply Hv; unfold residuals_of; rewrite map_length, lagged_length; lia).
  unfold nsqr. cbn [nmul]. rewrite sqrt_sqrt by auto. rewrite nsub_fin. rewrite ndiv_fin by nra.
  assert (Hln : ln s < 0) by (rewrite <- ln_1; apply ln_increasing; auto).
  assert (Hm : 0 < - ln s / dt) by (apply Rdiv_lt_0_compat; lra).
  rewrite nsqrt_fin.
  - do 4 f_equal. f_equal. ring.
  - apply Rmult_le_pos; [nra|]. left. apply Rinv_0_lt_compat. nra.
Qed.
Print Assumptions C27_ou_fit_least_squares.

(** The noise-free path of C22. *)
Definition ou_decay (mean k dt x0 : R) (t : nat) : R := mean + (x0 - mean) * exp (- (k * (INR t * dt))).

(** A noise-free path that starts away from the mean gives the generating mean and mrr back, and zero vol, as long as
    one step does not decay below the slope tolerance. *)
Theorem C27_ou_fit_noise_free : forall mean k dt x0 n infer chol o,
  0 < k -> 0 < dt -> x0 <> mean -> (2 <= n)%nat -> slope_tol < exp (- (k * dt)) ->
  let (fitted, outcome) := fit infer (ou_fit_np chol) o (DNp1 (fins (map (ou_decay mean k dt x0) (seq 0 (n + 1))))) (Some (Fin dt)) in
  outcome = Ok tt
  /\ ou_mean (o_par fitted) = Scal (Fin mean) /\ ou_mrr (o_par fitted) = Scal (Fin k) /\ ou_vol (o_par fitted) = Row [Fin 0].
Proof.
  intros mean k dt x0 n infer chol o Hk Hdt Hx Hn Htol.
  set (x := map (ou_decay mean k dt x0) (seq 0 (n + 1))). set (s := exp (- (k * dt))). fold s in Htol.
  assert (Lx : length x = (n + 1)%nat) by (unfold x; rewrite map_length, seq_length; auto).
  assert (Hs0 : 0 < s) by apply exp_pos.
  assert (Hs1 : s < 1) by (unfold s; rewrite <- exp_0; apply exp_increasing; nra).
  assert (Hrl : removelast x = map (ou_decay mean k dt x0) (seq 0 n)).
  { unfold x. rewrite seq_app, map_app. cbn [seq map]. apply removelast_last. }
  assert (Hstep : forall t, ou_decay mean k dt x0 (S t) = s * ou_decay mean k dt x0 t + mean * (1 - s)).
  { intros t. unfold ou_decay. rewrite S_INR. replace (- (k * ((INR t + 1) * dt))) with (- (k * dt) + - (k * (INR t * dt))) by ring.
    rewrite exp_plus. fold s. ring. }
  assert (Htl : tl x = map (fun a => s * a + mean * (1 - s)) (removelast x)).
  { rewrite Hrl, map_map. unfold x. rewrite Nat.add_1_r. cbn [seq map tl]. rewrite <- seq_shift, map_map.
    apply map_ext. intros t. apply Hstep. }
  assert (Hdiff : exists a b, In a (removelast x) /\ In b (removelast x) /\ a <> b).
  { exists (ou_decay mean k dt x0 0), (ou_decay mean k dt x0 1). rewrite Hrl.
    split; [apply in_map, in_seq; lia|]. split; [apply in_map, in_seq; lia|].
    rewrite Hstep. assert (E0 : ou_decay mean k dt x0 0 = x0).
    { unfold ou_decay. replace (- (k * (INR 0 * dt))) with 0 by (simpl; ring). rewrite exp_0. ring. }
    rewrite E0. intros E. apply Hx. assert ((x0 - mean) * (1 - s) = 0) by lra. apply Rmult_integral in H. lra. }
  unfold fit, preprocess_fit. cbn [to_numpy2 index_info get_date_time_index nrow ncol col_vec].
  rewrite length_fins, Lx. destruct (Nat.eqb_spec (n + 1) 0); [lia|].
  unfold ou_fit_np. cbn [ncol col_vec seq mapM]. rewrite <- Lx, <- (length_fins x). fold (col_vec (fins x)).
  unfold ou_fit_col. rewrite col_col_vec. unfold fins at 1 2 3 4. rewrite removelast_map, tl_map. fold (fins (removelast x)). fold (fins (tl x)).
  rewrite Htl, lstsq_exact by auto. cbn [bind fst snd]. rewrite nleb_fin, (proj2 (rleb_false _ _)) by auto.
  cbn [fst snd bind mapM Nat.ltb Nat.leb rev app o_par ou_mrr ou_mean ou_vol map].
  split; [reflexivity|].
  rewrite nlog_fin by auto. cbn [nneg]. rewrite ndiv_fin by lra. rewrite nsub_fin, ndiv_fin by lra.
  assert (Emrr : - ln s / dt = k) by (unfold s; rewrite ln_exp; field; lra). rewrite Emrr.
  split; [do 2 f_equal; field; lra|]. split; [reflexivity|].
  assert (Eres : map (fun w => nsub (snd w) (nadd (nmul (Fin s) (fst w)) (Fin (mean * (1 - s)))))
      (combine (fins (removelast x)) (fins (map (fun a => s * a + mean * (1 - s)) (removelast x))))
      = fins (map (fun _ => 0) (removelast x))).
  { unfold fins. rewrite !map_map. clear. induction (removelast x) as [|a l IH]; auto. cbn [map combine fst snd]. f_equal; [|exact IH].
    cbn. f_equal. ring. }
  assert (Erl : removelast (fins x) = fins (removelast x)) by apply removelast_map.
  assert (Etl : tl (fins x) = fins (tl x)) by apply tl_map.
  rewrite Erl, Etl, Htl, Eres. assert (Hlen : (1 < length (map (fun _ : R => 0%R) (removelast x)))%nat) by (rewrite map_length, Hrl, map_length, seq_length; lia).
  unfold fins. rewrite (nstd_fin 1 _ Hlen).
  assert (Ev : rvar 1 (map (fun _ => 0) (removelast x)) = 0).
  { unfold rvar. rewrite map_map. rewrite (rsum_ext _ _ (fun _ => 0)).
    - rewrite rsum_const. unfold Rdiv. ring.
    - intros a _. unfold rmean. rewrite rsum_const. unfold Rdiv. ring. }
  rewrite Ev, sqrt_0. unfold nsqr. cbn [nmul]. rewrite nsub_fin. rewrite ndiv_fin by nra.
  replace (2 * k * (0 * 0) / (1 - s * s)) with 0 by (unfold Rdiv; ring). rewrite nsqrt_fin by lra. rewrite sqrt_0. reflexivity.
Qed.
Print Assumptions C27_ou_fit_noise_free.

Example C27_example : (* mrr 2, daily steps *)
  0 < 2 /\ 0 < 1 / 252 /\ 5 <> 1 /\ slope_tol < exp (- (2 * (1 / 252))).
Proof.
  repeat split; try lra. unfold slope_tol.
  pose proof (exp_ineq1 (- (2 * (1 / 252)))). lra.
Qed.

(** Several series: mean and mrr are those of the last column alone. *)
Theorem C27_ou_fit_last_column : forall infer chol o x dt fitted,
  (1 <= ncol x)%nat -> fit infer (ou_fit_np chol) o (DNp2 x) (Some dt) = (fitted, Ok tt) ->
  forall o1, exists fitted1,
    fit infer (ou_fit_np chol) o1 (DNp1 (col x (ncol x - 1))) (Some dt) = (fitted1, Ok tt)
    /\ ou_mean (o_par fitted) = ou_mean (o_par fitted1) /\ ou_mrr (o_par fitted) = ou_mrr (o_par fitted1)
    /\ exists mean mrr, ou_mean (o_par fitted) = Scal mean /\ ou_mrr (o_par fitted) = Scal mrr.
Proof.
  intros infer chol o x dt fitted Hc H o1. unfold fit in H.
  destruct (Nat.eq_dec (nrow x) 0) as [E0|E0].
  { unfold preprocess_fit in H. cbn in H. rewrite E0 in H. cbn in H. discriminate. }
  rewrite preprocess_np2 in H by lia. unfold ou_fit_np in H.
  destruct (mapM (ou_fit_col x) (seq 0 (ncol x))) as [cs|e] eqn:Em; [|discriminate].
  pose proof (mapM_ok_length _ _ _ _ _ Em) as Hlen. rewrite seq_length in Hlen.
  assert (Hlast : nth_error (seq 0 (ncol x)) (ncol x - 1) = Some (ncol x - 1)%nat).
  { rewrite (nth_error_nth' _ O) by (rewrite seq_length; lia). rewrite seq_nth by lia. reflexivity. }
  destruct (mapM_ok_nth _ _ _ _ _ Em _ _ Hlast) as (q & Hq & Hqe).
  destruct q as [[s i] res].
  assert (Hrev : exists tl', rev cs = (s, i, res) :: tl').
  { destruct (@exists_last _ cs) as (cs0 & c0 & ->); [intros ->; simpl in Hlen; lia|]. rewrite rev_app_distr. cbn [rev app].
    rewrite app_length in Hlen. cbn [length] in Hlen.
    rewrite nth_error_app2 in Hq by lia. replace (ncol x - 1 - length cs0)%nat with O in Hq by lia. injection Hq as ->. eauto. }
  destruct Hrev as (tl' & Hrev).
  assert (Hone : ou_fit_col (col_vec (col x (ncol x - 1))) 0 = Ok (s, i, res)).
  { rewrite <- Hqe. unfold ou_fit_col. rewrite col_col_vec. reflexivity. }
  assert (Hl : length (col x (ncol x - 1)) <> O) by (unfold col; rewrite map_length, seq_length; auto).
  unfold fit, preprocess_fit. cbn [to_numpy2 index_info get_date_time_index].
  change (nrow (col_vec (col x (ncol x - 1)))) with (length (col x (ncol x - 1))).
  destruct (Nat.eqb_spec (length (col x (ncol x - 1))) 0); [congruence|].
  unfold ou_fit_np. change (ncol (col_vec (col x (ncol x - 1)))) with 1%nat. cbn [seq mapM].
  rewrite Hone. cbn [bind mapM Nat.ltb Nat.leb rev app]. eexists. split; [reflexivity|]. cbn [o_par ou_mean ou_mrr].
  rewrite Hrev in H. destruct (Nat.ltb 1 (ncol x)).
  - destruct (chol _); [|discriminate]. injection H as <-. cbn [o_par ou_mean ou_mrr]. eauto 6.
  - injection H as <-. cbn [o_par ou_mean ou_mrr]. eauto 6.
Qed.
Print Assumptions C27_ou_fit_last_column.

(** After any successful fit every path_sample call with acceptable x0 and dt raises IndexError. *)
Theorem C27_ou_path_after_fit_fails : forall infer chol o x dt fitted,
  fit infer (ou_fit_np chol) o x dt = (fitted, Ok tt) ->
  forall z x0 dt' steps P ls lf columns incl pre,
    preprocess_path (o_fit fitted) (Fin 0) x0 dt' ls lf = Ok pre ->
    ou_path_sample fitted z x0 dt' steps P ls lf columns incl = Raise IndexError.
Proof.
  intros infer chol o x dt fitted H z x0 dt' steps P ls lf columns incl [[[xv d] ls'] lf'] Hp.
  assert (E : exists mean mrr vol c L, o_par fitted = mkOU (Scal mean) (Scal mrr) (Row vol) c L).
  { unfold fit in H. destruct (preprocess_fit infer (o_fit o) x dt) as [st [[v d']|e]]; [|discriminate].
    unfold ou_fit_np in H. destruct (mapM _ _) as [cs|]; [|discriminate].
    destruct (rev cs) as [|[[s i] r] tl']; destruct (Nat.ltb 1 (ncol v)); try (destruct (chol _)); try discriminate;
      injection H as <-; cbn; eauto 9. }
  destruct E as (mean & mrr & vol & c & L & E).
  unfold ou_path_sample, path_sample. rewrite Hp. cbn [bind]. rewrite E. reflexivity.
Qed.
Print Assumptions C27_ou_path_after_fit_fails.

(** In particular with all arguments left at their defaults, for numpy data and a positive dt. *)
Theorem C27_ou_default_path_after_fit_fails : forall infer chol o x dt fitted, 0 < dt ->
  fit infer (ou_fit_np chol) o (DNp2 x) (Some (Fin dt)) = (fitted, Ok tt) ->
  forall z steps P, ou_path_sample fitted z X0None None steps P None None None true = Raise IndexError.
Proof.
  intros infer chol o x dt fitted Hdt H z steps P.
  assert (E : f_x0 (o_fit fitted) = Some (row x 0) /\ f_dt (o_fit fitted) = Some (Fin dt)).
  { unfold fit in H. destruct (Nat.eq_dec (nrow x) 0) as [E0|E0].
    - unfold preprocess_fit in H. cbn in H. rewrite E0 in H. discriminate.
    - rewrite preprocess_np2 in H by lia. destruct (ou_fit_np chol (o_par o) x (Fin dt)) as [p r]. injection H as <- _. split; reflexivity. }
  destruct E as [E1 E2].
  assert (Hp : exists pre, preprocess_path (o_fit fitted) (Fin 0) X0None None None None = Ok pre).
  { unfold preprocess_path. rewrite E1, E2. cbn [bind]. unfold ngtb, nltb. rewrite (proj2 (rltb_true 0 dt)) by auto. eauto. }
  destruct Hp as (pre & Hp). eapply C27_ou_path_after_fit_fails; eauto.
Qed.
Print Assumptions C27_ou_default_path_after_fit_fails.

(** A successful fit on two columns exists (whatever the values), so the last three theorems are not vacuous. *)
Example C27_two_columns : forall infer o (f : nat -> nat -> R),
  exists fitted, fit infer (ou_fit_np (fun a => Ok a)) o (DNp2 (mkArr 3 2 (fun i j => Fin (f i j)))) (Some (Fin 1)) = (fitted, Ok tt).
Proof.
  intros infer o f.
  assert (H : forall j, exists c, ou_fit_col (mkArr 3 2 (fun i j => Fin (f i j))) j = Ok c).
  { intros j. unfold ou_fit_col, lstsq_line. cbn [col nrow seq map removelast tl at2 forallb is_fin andb].
    destruct (reqb _ _); cbn [bind]; eauto. }
  destruct (H 0%nat) as ([[s0 i0] r0] & H0). destruct (H 1%nat) as ([[s1 i1] r1] & H1).
  unfold fit. rewrite preprocess_np2 by (cbn; lia). unfold ou_fit_np. cbn [ncol seq mapM]. rewrite H0. cbn [bind]. rewrite H1. cbn.
  eauto.
Qed.
