(** Properties C24-C27: fitting and likelihoods. *)
From Coq Require Import Reals Lra String ZArith List Arith Bool Lia.
From Verif Require Import Base Num Sim_Model Sim_Spec Sim_Proofs Sim_Fit_Proofs.
Import ListNotations.
Open Scope R_scope.

(** The noise sample of variate v in a one-path simulation of n steps. *)
Definition noise_sample (m n : nat) (L : option (nat -> nat -> R)) (z : nat -> R) (v : nat) : list R :=
  map (fun t => shock m 1 L z t 0 v) (seq 0 n).

(* ------------------------------------------------------------------ *)
(** ** C24: fitting BM to its own path *)

Theorem C24_bm_fit_of_own_path : forall chol d vol cor L x0 dt z n,
  let m := length d in
  (0 < m)%nat -> perV vol m -> chol_of chol m cor L -> x0 <> [] -> Nat.divide (length x0) (m * 1) -> 0 < dt -> (2 <= n)%nat ->
  exists o a,
    bm_new chol (DNp1 (fins d)) (DNp1 (fins vol)) cor = Ok o
    /\ bm_path_sample o (fnoise z) (X0Data (DNp1 (fins x0))) (Some (Fin dt)) n 1 None None None true = Ok (ONp a)
    /\ forall infer chol' (o' : obj bmpar),
       let (fitted, outcome) := fit infer (bm_fit_np chol') o' (DNp2 a) (Some (Fin dt)) in
       bm_drift (o_par fitted)
         = fins (map (fun v => nth v d 0 + pget vol v * rmean (noise_sample m n L z v) / sqrt dt) (seq 0 m))
       /\ bm_vol (o_par fitted) = fins (map (fun v => Rabs (pget vol v) * sqrt (rvar 1 (noise_sample m n L z v))) (seq 0 m))
       /\ (m = 1%nat -> outcome = Ok tt).
Proof.
  intros chol d vol cor L x0 dt z n m Hm Hvol HL Hx0 Hdiv Hdt Hn.
  destruct (bm_core d vol cor L x0 dt z n 1) as (a & E & K1 & K2 & K3); auto.
  assert (Ho : exists k, bm_new chol (DNp1 (fins d)) (DNp1 (fins vol)) cor
     = Ok (mkObj (mkBM (fins d) (fins vol) cor (option_map (farr (length d) (length d)) L)) k unfitted)).
  { unfold bm_new, bm_init. cbn [to_row bind]. destruct cor, L; cbn in HL; try tauto; [rewrite HL|]; cbn [bind option_map]; eauto. }
  destruct Ho as (k & Ho). eexists; exists a. split; [exact Ho|].
  unfold bm_path_sample. cbn [o_fit o_par]. rewrite path_sample_plain by auto. rewrite E. cbn [bind].
  split; [reflexivity|]. intros infer chol' o'. unfold fit. rewrite preprocess_np2 by lia.
  unfold bm_fit_np.
  destruct (fit_changes_spec chol' (o_par o') (diff0 a) dt (fun t v => bm_step d vol L dt z 1 t 0 v)) as (F1 & F2 & F3);
    [auto|cbn [nrow diff0]; lia| |].
  { intros t v Ht Hv. cbn [nrow ncol at2 diff0] in *.
    assert (K3' : forall t, at2 a t v = Fin (bm_real d vol L x0 dt z 1 t 0 v)) by (intros t'; apply (K3 t' 0%nat v); lia).
    rewrite !K3'.
    cbn [bm_real]. rewrite nsub_fin. f_equal. ring. }
  destruct (fit_changes chol' (o_par o') (diff0 a) (Fin dt)) as [p r]. cbn [fst snd o_par] in *.
  rewrite F1, F2. cbn [nrow ncol diff0]. rewrite K1, K2, Nat.mul_1_r.
  replace (S n - 1)%nat with n by lia. fold m.
  assert (Hs : 0 < sqrt dt) by (apply sqrt_lt_R0; auto).
  assert (Hd : dt = sqrt dt * sqrt dt) by (symmetry; apply sqrt_sqrt; lra).
  assert (Hseq : seq 0 n <> []) by (destruct n; [lia|simpl; congruence]).
  split; [|split].
  - f_equal. apply map_ext. intros v. unfold bm_step. rewrite rmean_affine by auto. fold m. fold (noise_sample m n L z v).
    remember (sqrt dt) as s. rewrite Hd. field. lra.
  - f_equal. apply map_ext. intros v. unfold bm_step. rewrite rvar_affine by auto. fold m. fold (noise_sample m n L z v).
    rewrite sqrt_mult; [|apply Rle_0_sqr|apply rvar_nonneg; unfold noise_sample; rewrite map_length, seq_length; lia].
    replace (pget vol v * sqrt dt * (pget vol v * sqrt dt)) with (Rsqr (pget vol v * sqrt dt)) by reflexivity.
    rewrite sqrt_Rsqr_abs, Rabs_mult, (Rabs_pos_eq (sqrt dt)) by lra. field. lra.
  - intros H1. apply F3. cbn. lia.
Qed.
Print Assumptions C24_bm_fit_of_own_path.

(** Noise of mean 0 and standard deviation 1, non-negative vol: the generating parameters come back exactly. *)
Theorem C24_bm_fit_recovers_parameters : forall chol d vol cor L x0 dt z n,
  let m := length d in
  (0 < m)%nat -> perV vol m -> chol_of chol m cor L -> x0 <> [] -> Nat.divide (length x0) (m * 1) -> 0 < dt -> (2 <= n)%nat ->
  (forall s, In s vol -> 0 <= s) ->
  (forall v, (v < m)%nat -> rmean (noise_sample m n L z v) = 0 /\ rvar 1 (noise_sample m n L z v) = 1) ->
  exists o a,
    bm_new chol (DNp1 (fins d)) (DNp1 (fins vol)) cor = Ok o
    /\ bm_path_sample o (fnoise z) (X0Data (DNp1 (fins x0))) (Some (Fin dt)) n 1 None None None true = Ok (ONp a)
    /\ forall infer chol' (o' : obj bmpar),
       let (fitted, _) := fit infer (bm_fit_np chol') o' (DNp2 a) (Some (Fin dt)) in
       bm_drift (o_par fitted) = fins d /\ bm_vol (o_par fitted) = fins (map (pget vol) (seq 0 m)).
Proof.
  intros chol d vol cor L x0 dt z n m Hm Hvol HL Hx0 Hdiv Hdt Hn Hpos Hz.
  destruct (C24_bm_fit_of_own_path chol d vol cor L x0 dt z n) as (o & a & H1 & H2 & H3); auto.
  exists o, a. split; [auto|split; [auto|]]. intros infer chol' o'. specialize (H3 infer chol' o').
  destruct (fit infer (bm_fit_np chol') o' (DNp2 a) (Some (Fin dt))) as [fitted out]. destruct H3 as (-> & -> & _). fold m.
  split.
  - f_equal. rewrite (map_ext_in _ (fun v => nth v d 0)).
    + apply nth_ext with (d := 0) (d' := 0); rewrite map_length, seq_length; [reflexivity|].
      intros i Hi. rewrite nth_map_seq by auto. reflexivity.
    + intros v Hv. apply in_seq in Hv. destruct (Hz v) as [-> _]; [lia|]. unfold Rdiv. ring.
  - f_equal. apply map_ext_in. intros v Hv. apply in_seq in Hv. destruct (Hz v) as [_ ->]; [lia|]. rewrite sqrt_1.
    rewrite Rabs_pos_eq; [ring|]. apply Hpos. unfold pget.
    destruct (Nat.eqb_spec (length vol) 1); apply nth_In; destruct Hvol; lia.
Qed.
Print Assumptions C24_bm_fit_recovers_parameters.

(** Noise -1, 0, 1 has mean 0 and standard deviation 1. *)
Example C24_example : let z := fun i => INR i - 1 in
  rmean (noise_sample 1 3 None z 0) = 0 /\ rvar 1 (noise_sample 1 3 None z 0) = 1.
Proof. cbn. unfold rmean, rvar, draw. cbn. unfold rmean. cbn. split; field. Qed.

(* ------------------------------------------------------------------ *)
(** ** C25: fitting GBM to its own path *)

Theorem C25_gbm_fit_of_own_path : forall chol d vol cor L x0 dt z n,
  let m := length d in
  (0 < m)%nat -> perV vol m -> chol_of chol m cor L -> x0 <> [] -> (forall e, In e x0 -> 0 < e) ->
  Nat.divide (length x0) (m * 1) -> 0 < dt -> (2 <= n)%nat ->
  exists o a,
    bm_new chol (DNp1 (fins d)) (DNp1 (fins vol)) cor = Ok o
    /\ gbm_path_sample o (fnoise z) (X0Data (DNp1 (fins x0))) (Some (Fin dt)) n 1 None None None true = Ok (ONp a)
    /\ forall infer chol' (o' : obj bmpar),
       let (fitted, outcome) := fit infer (gbm_fit_np chol') o' (DNp2 a) (Some (Fin dt)) in
       bm_drift (o_par fitted)
         = fins (map (fun v => nth v d 0 - pget vol v ^ 2 / 2 + pget vol v * rmean (noise_sample m n L z v) / sqrt dt) (seq 0 m))
       /\ bm_vol (o_par fitted) = fins (map (fun v => Rabs (pget vol v) * sqrt (rvar 1 (noise_sample m n L z v))) (seq 0 m))
       /\ (m = 1%nat -> outcome = Ok tt).
Proof.
  intros chol d vol cor L x0 dt z n m Hm Hvol HL Hx0 Hpos Hdiv Hdt Hn.
  destruct (gbm_core d vol cor L x0 dt z n 1) as (a & E & K1 & K2 & K3); auto.
  assert (Ho : exists k, bm_new chol (DNp1 (fins d)) (DNp1 (fins vol)) cor
     = Ok (mkObj (mkBM (fins d) (fins vol) cor (option_map (farr (length d) (length d)) L)) k unfitted)).
  { unfold bm_new, bm_init. cbn [to_row bind]. destruct cor, L; cbn in HL; try tauto; [rewrite HL|]; cbn [bind option_map]; eauto. }
  destruct Ho as (k & Ho). eexists; exists a. split; [exact Ho|].
  unfold gbm_path_sample. cbn [o_fit o_par]. rewrite path_sample_plain by auto. rewrite E. cbn [bind].
  split; [reflexivity|]. intros infer chol' o'. unfold fit. rewrite preprocess_np2 by lia.
  unfold gbm_fit_np.
  destruct (fit_changes_spec chol' (o_par o') (logret a) dt (fun t v => gbm_step d vol L dt z 1 t 0 v)) as (F1 & F2 & F3);
    [auto|cbn [nrow logret]; lia| |].
  { intros t v Ht Hv. cbn [nrow ncol at2 logret] in *.
    assert (Hs : 0 < nth ((0 * length d + v) mod length x0) x0 0).
    { apply Hpos, nth_In, Nat.mod_upper_bound. destruct x0; simpl; [congruence|lia]. }
    assert (K3' : forall t, at2 a t v = Fin (exp (gbm_log d vol L (ln (nth ((0 * length d + v) mod length x0) x0 0)) dt z 1 t 0 v)))
      by (intros t'; apply (proj1 (K3 t' 0%nat v ltac:(lia) ltac:(lia)) Hs)).
    rewrite !K3'. cbn [gbm_log]. pose proof (exp_pos (gbm_log d vol L (ln (nth ((0 * length d + v) mod length x0) x0 0)) dt z 1 t 0 v)).
    rewrite ndiv_fin by lra. unfold Rdiv. rewrite <- exp_Ropp, <- exp_plus. rewrite nlog_fin by apply exp_pos. rewrite ln_exp.
    f_equal. ring. }
  destruct (fit_changes chol' (o_par o') (logret a) (Fin dt)) as [p r]. cbn [fst snd o_par] in *.
  rewrite F1, F2. cbn [nrow ncol logret]. rewrite K1, K2, Nat.mul_1_r.
  replace (S n - 1)%nat with n by lia. fold m.
  assert (Hs : 0 < sqrt dt) by (apply sqrt_lt_R0; auto).
  assert (Hd : dt = sqrt dt * sqrt dt) by (symmetry; apply sqrt_sqrt; lra).
  assert (Hseq : seq 0 n <> []) by (destruct n; [lia|simpl; congruence]).
  split; [|split].
  - f_equal. apply map_ext. intros v. unfold gbm_step. rewrite rmean_affine by auto. fold m. fold (noise_sample m n L z v).
    remember (sqrt dt) as s. rewrite Hd. field. lra.
  - f_equal. apply map_ext. intros v. unfold gbm_step. rewrite rvar_affine by auto. fold m. fold (noise_sample m n L z v).
    rewrite sqrt_mult; [|apply Rle_0_sqr|apply rvar_nonneg; unfold noise_sample; rewrite map_length, seq_length; lia].
    replace (pget vol v * sqrt dt * (pget vol v * sqrt dt)) with (Rsqr (pget vol v * sqrt dt)) by reflexivity.
    rewrite sqrt_Rsqr_abs, Rabs_mult, (Rabs_pos_eq (sqrt dt)) by lra. field. lra.
  - intros H1. apply F3. cbn. lia.
Qed.
Print Assumptions C25_gbm_fit_of_own_path.

(** Hence fit does not invert path_sample: with noise of mean 0 and standard deviation 1 the fitted drift is too low by
    vol^2/2, and is right only for vol = 0. *)
Theorem C25_gbm_fit_inverts_refuted : forall d s dt x0 z n,
  0 < s -> 0 < x0 -> 0 < dt -> (2 <= n)%nat -> rmean (noise_sample 1 n None z 0) = 0 -> rvar 1 (noise_sample 1 n None z 0) = 1 ->
  exists o a,
    bm_new (fun c => Ok c) (DNp1 [Fin d]) (DNp1 [Fin s]) None = Ok o
    /\ gbm_path_sample o (fnoise z) (X0Data (DNp1 [Fin x0])) (Some (Fin dt)) n 1 None None None true = Ok (ONp a)
    /\ forall infer chol' o',
       bm_drift (o_par (fst (fit infer (gbm_fit_np chol') o' (DNp2 a) (Some (Fin dt))))) = [Fin (d - s ^ 2 / 2)]
       /\ bm_vol (o_par (fst (fit infer (gbm_fit_np chol') o' (DNp2 a) (Some (Fin dt))))) = [Fin s]
       /\ bm_drift (o_par (fst (fit infer (gbm_fit_np chol') o' (DNp2 a) (Some (Fin dt))))) <> [Fin d].
Proof.
  intros d s dt x0 z n Hs Hx Hdt Hn Hm Hv.
  destruct (C25_gbm_fit_of_own_path (fun c => Ok c) [d] [s] None None [x0] dt z n) as (o & a & H1 & H2 & H3);
    try (cbn; auto; fail); auto.
  { left; reflexivity. } { discriminate. } { intros e [<-|[]]; auto. } { exists 1%nat; reflexivity. }
  exists o, a. split; [auto|split; [auto|]]. intros infer chol' o'. specialize (H3 infer chol' o').
  destruct (fit infer (gbm_fit_np chol') o' (DNp2 a) (Some (Fin dt))) as [fitted out]. cbn [fst]. destruct H3 as (-> & -> & _).
  cbn [length seq map fins nth fst]. unfold pget. cbn [length Nat.eqb nth]. rewrite Hm, Hv, sqrt_1.
  rewrite Rabs_pos_eq by lra. unfold Rdiv. rewrite Rmult_0_r, Rmult_0_l, Rplus_0_r, Rmult_1_r.
  split; [reflexivity|]. split; [reflexivity|]. intros E. injection E as E. nra.
Qed.
Print Assumptions C25_gbm_fit_inverts_refuted.

(* ------------------------------------------------------------------ *)
(** ** C26: likelihoods *)

(** Observations x[0..n] of m variates: increments and log returns. *)
Definition incr (x : nat -> nat -> R) (t v : nat) : R := x (t + 1)%nat v - x t v.

(** BM: the increments are scored under the law used by path_sample: mean drift*dt, variance vol^2*dt. *)
Theorem C26_bm_nll : forall infer mvn d vol k st x n dt,
  let m := length d in
  (0 < m)%nat -> perV vol m -> (forall s, In s vol -> 0 < s) -> 0 < dt ->
  snd (nll infer (bm_nll_np mvn) (mkObj (mkBM (fins d) (fins vol) None None) k st) (DNp2 (farr (n + 1) m x)) (Some (Fin dt)))
  = Ok (Fin (normal_nll n m (fun v => nth v d 0 * dt) (fun v => pget vol v ^ 2 * dt) (incr x))).
Proof.
  intros infer mvn d vol k st x n dt m Hm Hvol Hpos Hdt. unfold nll. rewrite preprocess_np2 by (cbn; lia). cbn [snd o_par].
  unfold bm_nll_np, nll_with. cbn [bm_cor bm_drift bm_vol].
  rewrite (nll_indep_real n m _ _ (fun v => nth v d 0 * dt) (fun v => pget vol v * sqrt dt) _ (incr x)); auto.
  - do 2 f_equal. unfold normal_nll. f_equal. apply rsum_ext. intros t _. apply rsum_ext. intros v _. do 2 f_equal.
    replace (pget vol v * sqrt dt * (pget vol v * sqrt dt)) with (pget vol v ^ 2 * (sqrt dt * sqrt dt)) by ring. rewrite sqrt_sqrt by lra. reflexivity.
  - cbn. lia.
  - right. rewrite map_length. apply length_fins.
  - apply perV_map, perV_map; auto.
  - intros t v Ht Hv. cbn. unfold incr. rewrite Nat.add_1_r. reflexivity.
  - intros v Hv. split; [|split].
    + rewrite (bget_map _ _ m) by (auto; right; apply length_fins). rewrite (bget_fins _ m) by (auto; right; reflexivity).
      rewrite pget_full by auto. reflexivity.
    + apply scale_dt_get with (V := m); auto; lra.
    + apply Rmult_lt_0_compat; [|apply sqrt_lt_R0; auto]. apply Hpos. unfold pget.
      destruct (Nat.eqb_spec (length vol) 1); apply nth_In; destruct Hvol; lia.
Qed.
Print Assumptions C26_bm_nll.

(** OU: residuals x[t+1] - f x[t], f = exp(-mrr dt), scored under mean*(1-f) and the variance of C22. *)
Theorem C26_ou_nll : forall infer mvn mean mrr vol k st x n dt,
  let m := length mean in
  (0 < m)%nat -> perV mrr m -> perV vol m -> (forall q, In q mrr -> 0 < q) -> (forall s, In s vol -> 0 < s) -> 0 < dt ->
  snd (nll infer (ou_nll_np mvn) (mkObj (mkOU (Row (fins mean)) (Row (fins mrr)) (Row (fins vol)) None None) k st)
         (DNp2 (farr (n + 1) m x)) (Some (Fin dt)))
  = Ok (Fin (normal_nll n m (fun v => 0)
               (fun v => pget vol v ^ 2 * (1 - exp (- (2 * pget mrr v * dt))) / (2 * pget mrr v))
               (fun t v => x (t + 1)%nat v - (nth v mean 0 + (x t v - nth v mean 0) * exp (- (pget mrr v * dt)))))).
Proof.
  intros infer mvn mean mrr vol k st x n dt m Hm Hmr Hvol Hq Hpos Hdt. unfold nll. rewrite preprocess_np2 by (cbn; lia). cbn [snd o_par].
  destruct (ou_terms (fins mean) (fins mrr) (fins vol) None None (Fin dt) m)
    as (mt & sc & E1 & E2 & Pm & Ps & Hg); [apply length_fins|apply perV_map; auto|apply perV_map; auto|].
  unfold ou_nll_np. rewrite E1, E2. cbn [bind pflat ou_factor ou_mrr pmap ou_cor ncol farr nrow].
  rewrite bfits_perV by (apply perV_map, perV_map; auto). unfold nll_with.
  assert (Hkv : forall v, (v < m)%nat -> 0 < pget mrr v).
  { intros v Hv. apply Hq. unfold pget. destruct (Nat.eqb_spec (length mrr) 1); apply nth_In; destruct Hmr; lia. }
  assert (Hsv : forall v, (v < m)%nat -> 0 < pget vol v).
  { intros v Hv. apply Hpos. unfold pget. destruct (Nat.eqb_spec (length vol) 1); apply nth_In; destruct Hvol; lia. }
  set (F := fun v => exp (- pget mrr v * dt)).
  set (VAR := fun v => pget vol v * pget vol v / (2 * pget mrr v) * (1 - exp (-2 * pget mrr v * dt))).
  assert (HV : forall v, (v < m)%nat -> 0 < VAR v).
  { intros v Hv. unfold VAR. specialize (Hkv v Hv). specialize (Hsv v Hv). apply Rmult_lt_0_compat.
    - apply Rdiv_lt_0_compat; nra.
    - assert (exp (-2 * pget mrr v * dt) < exp 0) by (apply exp_increasing; nra). rewrite exp_0 in *. lra. }
  rewrite (nll_indep_real n m _ _ (fun v => nth v mean 0 * (1 - F v)) (fun v => sqrt (VAR v)) _
            (fun t v => x (t + 1)%nat v - F v * x t v)); auto.
  - do 2 f_equal. unfold normal_nll. f_equal. apply rsum_ext. intros t _. apply rsum_ext. intros v Hv. apply in_seq in Hv.
    rewrite sqrt_sqrt by (left; apply HV; lia). specialize (Hkv v ltac:(lia)). unfold normal_pdf.
    assert (EV : VAR v = pget vol v ^ 2 * (1 - exp (- (2 * pget mrr v * dt))) / (2 * pget mrr v)).
    { unfold VAR. replace (-2 * pget mrr v * dt) with (- (2 * pget mrr v * dt)) by ring. field. lra. }
    rewrite EV. replace (- (pget mrr v * dt)) with (- pget mrr v * dt) by ring. fold (F v).
    do 5 f_equal. ring.
  - cbn. lia.
  - intros t v Ht Hv. cbn [at2 nrow farr]. destruct (Hg v Hv) as (_ & _ & G3).
    rewrite (bget_fins _ m) in G3 by auto. rewrite G3. cbn [nneg nmul nexp nsub nadd]. f_equal. unfold F. rewrite Nat.add_1_r. ring.
  - intros v Hv. destruct (Hg v Hv) as (G1 & G2 & _).
    rewrite !(bget_fins _ m) in G1 by (auto; right; reflexivity). rewrite pget_full in G1 by auto.
    rewrite !(bget_fins _ m) in G2 by auto. split; [|split].
    + rewrite G1. reflexivity.
    + rewrite G2. unfold nsqr. cbn [nmul]. specialize (Hkv v Hv). rewrite ndiv_fin by lra. cbn [nexp nsub nadd nneg nmul].
      rewrite nsqrt_fin; [reflexivity|]. left. apply (HV v Hv).
    + apply sqrt_lt_R0, HV; auto.
Qed.
Print Assumptions C26_ou_nll.

(** GBM: log returns are scored with mean drift - vol^2/2, without the factor dt. *)
Theorem C26_gbm_nll : forall infer mvn d vol k st x n dt,
  let m := length d in
  (0 < m)%nat -> perV vol m -> (forall s, In s vol -> 0 < s) -> 0 < dt ->
  (forall t v, (t <= n)%nat -> (v < m)%nat -> 0 < x t v) ->
  snd (nll infer (gbm_nll_np mvn) (mkObj (mkBM (fins d) (fins vol) None None) k st) (DNp2 (farr (n + 1) m x)) (Some (Fin dt)))
  = Ok (Fin (normal_nll n m (fun v => nth v d 0 - pget vol v ^ 2 / 2) (fun v => pget vol v ^ 2 * dt)
               (incr (fun t v => ln (x t v))))).
Proof.
  intros infer mvn d vol k st x n dt m Hm Hvol Hpos Hdt Hx. unfold nll. rewrite preprocess_np2 by (cbn; lia). cbn [snd o_par].
  unfold gbm_nll_np.
  assert (Hd : perV (fins d) m) by (right; apply length_fins).
  assert (Hv' : perV (fins vol) m) by (apply perV_map; auto).
  assert (E : gbm_mean (mkBM (fins d) (fins vol) None None)
              = Ok (op2 (fun a b => nsub a (nmul (Fin (1/2)) (nsqr b))) (fins d) (fins vol))).
  { pose proof (pmap2_row (fun a b => nsub a (nmul (Fin (1/2)) (nsqr b))) _ _ m Hd Hv') as E.
    unfold pmap2 in E. unfold gbm_mean. cbn [bm_drift bm_vol].
    destruct (Nat.eqb (length (fins d)) (length (fins vol)) || Nat.eqb (length (fins d)) 1 || Nat.eqb (length (fins vol)) 1);
      [|discriminate]. reflexivity. }
  rewrite E. cbn [bind]. unfold nll_with. cbn [bm_cor bm_drift bm_vol].
  rewrite (nll_indep_real n m _ _ (fun v => nth v d 0 - pget vol v ^ 2 / 2) (fun v => pget vol v * sqrt dt) _
            (incr (fun t v => ln (x t v)))); auto.
  - do 2 f_equal. unfold normal_nll. f_equal. apply rsum_ext. intros t _. apply rsum_ext. intros v _. do 2 f_equal.
    replace (pget vol v * sqrt dt * (pget vol v * sqrt dt)) with (pget vol v ^ 2 * (sqrt dt * sqrt dt)) by ring. rewrite sqrt_sqrt by lra. reflexivity.
  - cbn. lia.
  - apply op2_perV; auto.
  - apply perV_map, perV_map; auto.
  - intros t v Ht Hv. unfold logret. cbn [at2 farr]. unfold incr. rewrite Nat.add_1_r.
    assert (0 < x t v) by (apply Hx; auto; lia). assert (0 < x (S t) v) by (apply Hx; auto; lia).
    rewrite ndiv_fin by lra. rewrite nlog_fin by (apply Rdiv_lt_0_compat; auto).
    unfold Rdiv. rewrite ln_mult, ln_Rinv by (auto; apply Rinv_0_lt_compat; auto). reflexivity.
  - intros v Hv. split; [|split].
    + rewrite (op2_get _ _ _ m) by auto. rewrite !(bget_fins _ m) by (auto; right; reflexivity). rewrite pget_full by auto.
      cbn. f_equal. field.
    + apply scale_dt_get with (V := m); auto; lra.
    + apply Rmult_lt_0_compat; [|apply sqrt_lt_R0; auto]. apply Hpos. unfold pget.
      destruct (Nat.eqb_spec (length vol) 1); apply nth_In; destruct Hvol; lia.
Qed.
Print Assumptions C26_gbm_nll.

(** Likelihood of log returns under the law used by path_sample (C21). *)
Definition gbm_sampling_nll (d s dt : R) (n : nat) (x : nat -> nat -> R) : R :=
  normal_nll n 1 (fun _ => (d - s ^ 2 / 2) * dt) (fun _ => s ^ 2 * dt) (incr (fun t v => ln (x t v))).

(** The two agree on every path exactly when dt = 1 or drift = vol^2/2. *)
Theorem C26_gbm_nll_agrees_iff : forall infer mvn d s k st dt,
  0 < s -> 0 < dt ->
  (forall n x, (forall t v, 0 < x t v) ->
     snd (nll infer (gbm_nll_np mvn) (mkObj (mkBM [Fin d] [Fin s] None None) k st) (DNp2 (farr (n + 1) 1 x)) (Some (Fin dt)))
     = Ok (Fin (gbm_sampling_nll d s dt n x)))
  <-> dt = 1 \/ d = s ^ 2 / 2.
Proof.
  intros infer mvn d s k st dt Hs Hdt.
  assert (Hnll : forall n x, (forall t v, 0 < x t v) ->
     snd (nll infer (gbm_nll_np mvn) (mkObj (mkBM [Fin d] [Fin s] None None) k st) (DNp2 (farr (n + 1) 1 x)) (Some (Fin dt)))
     = Ok (Fin (normal_nll n 1 (fun v => d - s ^ 2 / 2) (fun v => s ^ 2 * dt) (incr (fun t v => ln (x t v)))))).
  { intros n x Hx. change [Fin d] with (fins [d]). change [Fin s] with (fins [s]).
    etransitivity; [apply (C26_gbm_nll infer mvn [d] [s] k st x n dt); auto|]; [left; reflexivity|intros q [<-|[]]; auto|].
    reflexivity. }
  split.
  - intros H. destruct (Req_dec dt 1) as [|H1]; [auto|]. right.
    set (mu := d - s ^ 2 / 2).
    specialize (H 1%nat (fun t _ => exp (INR t * mu)) (fun t v => exp_pos _)).
    rewrite Hnll in H by (intros; apply exp_pos).
    apply (f_equal (fun r => match r with Ok (Fin q) => q | _ => 0 end)) in H. cbv beta iota in H.
    unfold gbm_sampling_nll, normal_nll, incr in H. cbn [seq map Nat.add] in H. unfold rsum in H. cbn [fold_right] in H.
    rewrite !ln_exp in H. fold mu in H. replace (INR 1 * mu - INR 0 * mu) with mu in H by (simpl; ring).
    assert (Hw : 0 < s ^ 2 * dt) by (apply Rmult_lt_0_compat; [apply pow_lt|]; auto). set (w := s ^ 2 * dt) in *.
    assert (Hq : 0 < sqrt (2 * PI * w)) by (apply sqrt_lt_R0; pose proof PI_RGT_0; nra).
    assert (E : forall a, ln (normal_pdf a w mu) = - ((mu - a) ^ 2 / (2 * w)) - ln (sqrt (2 * PI * w))).
    { intros a. unfold normal_pdf. unfold Rdiv at 1. rewrite ln_mult by (try apply exp_pos; apply Rinv_0_lt_compat; auto).
      rewrite ln_Rinv, ln_exp by auto. ring. }
    rewrite !E in H.
    assert (H0 : (mu - mu * dt) ^ 2 / (2 * w) = 0).
    { replace (mu - mu) with 0 in H by ring. replace (0 ^ 2 / (2 * w)) with 0 in H by (unfold Rdiv; ring). lra. }
    assert (H2 : (mu - mu * dt) ^ 2 = 0).
    { apply (f_equal (fun q => q * (2 * w))) in H0. unfold Rdiv in H0. rewrite Rmult_assoc, Rinv_l in H0 by lra. lra. }
    assert (H3 : mu * (1 - dt) = 0) by nra. apply Rmult_integral in H3. unfold mu in H3. lra.
  - intros H n x Hx. rewrite Hnll by auto. do 2 f_equal. unfold gbm_sampling_nll, normal_nll. f_equal.
    apply rsum_ext. intros t _. apply rsum_ext. intros v _. do 2 f_equal.
    destruct H as [->| ->]; ring.
Qed.
Print Assumptions C26_gbm_nll_agrees_iff.

Example C26_example : (* daily data, drift 5 %, vol 20 %: the two likelihoods differ *)
  ~ ((1 / 252 = 1) \/ (1 / 20 = (1 / 5) ^ 2 / 2)).
Proof. intros [H|H]; lra. Qed.
