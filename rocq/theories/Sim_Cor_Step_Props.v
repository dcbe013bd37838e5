(** Property C97: correlated OU paths and the step size. *)
From Coq Require Import Reals Lra String ZArith List Arith Bool Lia FunctionalExtensionality Classical_Prop.
From Verif Require Import Base Num Sums Lin Sim_Model Sim_Spec Sim_Proofs Chol_Model Chol_Proofs Sim_Cor_Spec Sim_Cor_Nll_Props.
Import ListNotations.
Open Scope R_scope.

Lemma S_block : forall n m f, sumn (n * m) f = sumn n (fun t => sumn m (fun k => f (t * m + k)%nat)).
Proof. induction n as [|n IH]; intros m f; [reflexivity|]. rewrite S_succ. replace (S n * m)%nat with (n * m + m)%nat by lia. rewrite SP, IH. reflexivity. Qed.

(** geometric sum, last power first *)
Definition geo (n : nat) (x : R) : R := sumn n (fun t => x ^ (n - 1 - t)).
Lemma geo_S : forall n x, geo (S n) x = x * geo n x + 1.
Proof.
  intros n x. unfold geo. rewrite S_succ, <- S_scal. replace (S n - 1 - n)%nat with 0%nat by lia. cbn [pow]. f_equal. apply S_ext. intros t Ht.
  replace (S n - 1 - t)%nat with (S (n - 1 - t)) by lia. reflexivity.
Qed.
Lemma geo_value : forall n x, (1 - x) * geo n x = 1 - x ^ n.
Proof. induction n as [|n IH]; intros x; [unfold geo; rewrite S_0; cbn; ring|]. rewrite geo_S. cbn [pow]. replace ((1 - x) * (x * geo n x + 1)) with (x * ((1 - x) * geo n x) + (1 - x)) by ring. rewrite IH. ring. Qed.
Lemma geo_pos : forall n x, 0 <= x -> (0 < n)%nat -> 1 <= geo n x.
Proof.
  intros n x Hx Hn. destruct n as [|n]; [lia|]. rewrite geo_S. assert (0 <= geo n x); [|nra]. unfold geo. apply S_nonneg. intros. apply pow_le. auto.
Qed.
(** equality in the Cauchy-Schwarz inequality *)
Lemma geo_cs : forall n a b, 0 < a -> 0 < b -> (2 <= n)%nat -> (geo n (a * b) = sqrt (geo n (a ^ 2)) * sqrt (geo n (b ^ 2)) <-> a = b).
Proof.
  intros n a b Ha Hb Hn. pose proof (geo_pos n (a ^ 2) ltac:(nra) ltac:(lia)) as GA. pose proof (geo_pos n (b ^ 2) ltac:(nra) ltac:(lia)) as GB.
  set (A := sqrt (geo n (a ^ 2))). set (B := sqrt (geo n (b ^ 2))).
  assert (PA : 0 < A) by (apply sqrt_lt_R0; lra). assert (PB : 0 < B) by (apply sqrt_lt_R0; lra).
  assert (EA : A * A = geo n (a ^ 2)) by (apply sqrt_sqrt; lra). assert (EB : B * B = geo n (b ^ 2)) by (apply sqrt_sqrt; lra).
  split.
  - intros E. assert (Z : sumn n (fun t => (a ^ (n - 1 - t) * B - b ^ (n - 1 - t) * A) ^ 2) = 0).
    { rewrite (S_ext n _ (fun t => (B * B * (a ^ 2) ^ (n - 1 - t) + A * A * (b ^ 2) ^ (n - 1 - t)) + (-2 * A * B) * (a * b) ^ (n - 1 - t))).
      - rewrite S_plus, S_plus, !S_scal. fold (geo n (a ^ 2)) (geo n (b ^ 2)) (geo n (a * b)). rewrite E, <- EA, <- EB. ring.
      - intros t Ht. rewrite !Rpow_mult_distr. rewrite <- !pow_mult, (Nat.mul_comm 2), !pow_mult. cbn [pow]. ring. }
    assert (T : forall t, (t < n)%nat -> a ^ (n - 1 - t) * B = b ^ (n - 1 - t) * A).
    { intros t Ht. pose proof (S_ge_term n (fun t => (a ^ (n - 1 - t) * B - b ^ (n - 1 - t) * A) ^ 2) t Ht ltac:(intros; apply pow2_ge_0)) as G. cbv beta in G. rewrite Z in G.
      set (u := a ^ (n - 1 - t) * B - b ^ (n - 1 - t) * A) in *. assert (u = 0) by nra. unfold u in *. lra. }
    pose proof (T (n - 1)%nat ltac:(lia)) as T0. pose proof (T (n - 2)%nat ltac:(lia)) as T1. replace (n - 1 - (n - 1))%nat with 0%nat in T0 by lia. replace (n - 1 - (n - 2))%nat with 1%nat in T1 by lia.
    cbn [pow] in T0, T1. assert (A = B) by lra. subst B. rewrite <- H in T1. nra.
  - intros ->. fold B. unfold A, B. rewrite sqrt_sqrt by lra. f_equal. ring.
Qed.

Definition fade (k dt : R) : R := exp (- (k * dt)).
Lemma fade_pow : forall k dt n, fade k dt ^ n = exp (- (k * (INR n * dt))).
Proof. intros k dt n. unfold fade. induction n as [|n IH]; [cbn; replace (- (k * (0 * dt))) with 0 by ring; rewrite exp_0; reflexivity|]. cbn [pow]. rewrite IH, <- exp_plus, S_INR. f_equal. ring. Qed.
Lemma step_sd_geo : forall k s dt n, 0 < k -> 0 < s -> 0 < dt -> (0 < n)%nat -> step_sd k s (INR n * dt) = step_sd k s dt * sqrt (geo n (fade k dt ^ 2)).
Proof.
  intros k s dt n Hk Hs Hdt Hn. unfold step_sd. rewrite <- sqrt_mult; [|left; apply step_sd_pos; auto|left; pose proof (geo_pos n (fade k dt ^ 2) ltac:(apply pow2_ge_0) Hn); lra]. f_equal.
  assert (E1 : exp (- (2 * k * dt)) = fade k dt ^ 2) by (rewrite fade_pow; f_equal; cbn [INR]; ring).
  assert (E2 : exp (- (2 * k * (INR n * dt))) = (fade k dt ^ 2) ^ n) by (rewrite <- pow_mult, fade_pow, mult_INR; f_equal; cbn [INR]; ring).
  rewrite E1, E2, <- geo_value. field. lra.
Qed.

(** endpoint in closed form *)
Lemma ou_real_dev : forall mean mrr vol l x0 dt z n v, ou_real mean mrr vol (Some l) x0 dt z 1 n 0 v
  = ou_real mean mrr vol (Some l) x0 dt zero_noise 1 n 0 v
    + sumn n (fun t => fade (pget mrr v) dt ^ (n - 1 - t) * (ou_sd (pget mrr v) (pget vol v) dt * shock (length mean) 1 (Some l) z t 0 v)).
Proof.
  intros mean mrr vol l x0 dt z n v. induction n as [|n IH]; [cbn [ou_real]; rewrite S_0; ring|]. cbn [ou_real]. unfold ou_step. rewrite IH at 1. rewrite S_succ. replace (S n - 1 - n)%nat with 0%nat by lia.
  replace (shock (length mean) 1 (Some l) zero_noise n 0 v) with 0.
  2:{ cbn [shock]. unfold draw, zero_noise. rewrite (rsum_ext _ _ (fun _ => 0)) by (intros; ring). rewrite rsum_const. ring. }
  rewrite (S_ext n (fun t => fade (pget mrr v) dt ^ (S n - 1 - t) * _) (fun t => fade (pget mrr v) dt * (fade (pget mrr v) dt ^ (n - 1 - t) * (ou_sd (pget mrr v) (pget vol v) dt * shock (length mean) 1 (Some l) z t 0 v)))).
  - rewrite S_scal. unfold fade. replace (- pget mrr v * dt) with (- (pget mrr v * dt)) by ring. cbn [pow]. ring.
  - intros t Ht. replace (S n - 1 - t)%nat with (S (n - 1 - t)) by lia. cbn [pow]. ring.
Qed.
Lemma step_sd_eq : forall k s dt, k <> 0 -> ou_sd k s dt = step_sd k s dt.
Proof. intros k s dt Hk. unfold ou_sd, step_sd. f_equal. replace (-2 * k * dt) with (- (2 * k * dt)) by ring. field. auto. Qed.

Section Endpoint.
Variables (mean mrr vol : list R) (C : mat) (x0 : list R) (dt : R) (n : nat).
Let m := length mean.
Hypothesis Hm : (0 < m)%nat.
Hypothesis Hmr : perV mrr m.
Hypothesis Hvol : perV vol m.
Hypothesis Hk : forall k, In k mrr -> 0 < k.
Hypothesis HC : posdef m C.
Hypothesis Hx0 : x0 <> [].
Hypothesis Hdiv : Nat.divide (length x0) m.
Hypothesis Hdt : 0 < dt.

Lemma endpoint_value : forall o, ou_new np_cholesky (DNp1 (fins mean)) (DNp1 (fins mrr)) (DNp1 (fins vol)) (Some (farr m m C)) = Ok o ->
  exists l, meq m C (mmul m l (mtr l)) /\ forall z v, (v < m)%nat ->
    endpoint o x0 dt n z v - endpoint o x0 dt n zero_noise v
    = sumn n (fun t => sumn m (fun k => fade (pget mrr v) dt ^ (n - 1 - t) * (step_sd (pget mrr v) (pget vol v) dt * l v k) * z (t * m + k)%nat)).
Proof.
  intros o Ho. destruct (ou_new_ok (fins mean) (fins mrr) (fins vol) m C HC) as (k & l & E & _ & _ & EC & El). rewrite E in Ho. injection Ho as <-. exists l. split; [exact EC|].
  intros z v Hv.
  assert (Ep : forall z, endpoint (mkObj (mkOU (Row (fins mean)) (Row (fins mrr)) (Row (fins vol)) (Some (farr m m C)) (Some (farr m m l))) k unfitted) x0 dt n z v = ou_real mean mrr vol (Some l) x0 dt z 1 n 0 v).
  { intros w. destruct (ou_core mean mrr vol (Some (farr m m C)) (Some l) x0 dt w n 1) as (a & Ea & _ & _ & Ka); auto.
    - right. destruct Hmr; [left; auto|right; lia].
    - intros q Hq. specialize (Hk q Hq). lra.
    - rewrite Nat.mul_1_r. exact Hdiv.
    - cbn [option_map] in Ea. fold m in Ea. unfold endpoint, ou_path_sample. cbn [o_fit o_par]. rewrite path_sample_plain by auto. rewrite Ea. cbn [bind out_at]. rewrite <- (Nat.add_0_l v) at 1.
      change (0 + v)%nat with (0 * length mean + v)%nat. rewrite Ka by (auto; lia). reflexivity. }
  assert (Hkv : pget mrr v <> 0) by (pose proof (Hk _ (pget_in _ m v Hmr Hv)); lra).
  rewrite !Ep, ou_real_dev. match goal with |- ?x + ?y - ?x = _ => replace (x + y - x) with y by ring end. apply S_ext. intros t Ht. rewrite step_sd_eq by auto.
  cbn [shock]. fold m. change (rsum (map (fun k0 => l v k0 * draw m 1 z t 0 k0) (seq 0 m))) with (sumn m (fun k0 => l v k0 * draw m 1 z t 0 k0)).
  symmetry. rewrite (S_ext m _ (fun q => (fade (pget mrr v) dt ^ (n - 1 - t) * step_sd (pget mrr v) (pget vol v) dt) * (l v q * draw m 1 z t 0 q))); [rewrite S_scal; ring|].
  intros q Hq. unfold draw. replace ((t * 1 + 0) * m + q)%nat with (t * m + q)%nat by lia. ring.
Qed.
Lemma block_inj : forall t k t' k', (k < m)%nat -> (k' < m)%nat -> (t * m + k = t' * m + k')%nat -> t = t' /\ k = k'.
Proof.
  intros t k t' k' Hk1 Hk2 E. assert (t = t'); [|subst; split; [reflexivity|lia]].
  rewrite (Nat.div_unique (t * m + k) m t k) by lia. symmetry. apply (Nat.div_unique (t * m + k) m t' k'); lia.
Qed.
Lemma unit_pick : forall (c : nat -> nat -> R) t0 k0, (t0 < n)%nat -> (k0 < m)%nat -> sumn n (fun t => sumn m (fun k => c t k * unit_noise (t0 * m + k0) (t * m + k)%nat)) = c t0 k0.
Proof.
  intros c t0 k0 Ht Hk0. unfold unit_noise. rewrite (S_single n _ t0 Ht).
  - rewrite (S_single m _ k0 Hk0); [rewrite Nat.eqb_refl; ring|]. intros k Hk' Hne. rewrite (proj2 (Nat.eqb_neq _ _)) by lia. ring.
  - intros t Ht' Hne. rewrite (S_ext m _ (fun _ => 0)); [apply S_zero|]. intros k Hk'. destruct (Nat.eqb_spec (t * m + k) (t0 * m + k0)) as [E|E]; [|ring]. apply block_inj in E; [|auto|auto]. destruct E; congruence.
Qed.
Lemma response_value : forall o, ou_new np_cholesky (DNp1 (fins mean)) (DNp1 (fins mrr)) (DNp1 (fins vol)) (Some (farr m m C)) = Ok o ->
  exists l, meq m C (mmul m l (mtr l)) /\ (forall v t k, (v < m)%nat -> (t < n)%nat -> (k < m)%nat ->
    response o x0 dt n v (t * m + k) = fade (pget mrr v) dt ^ (n - 1 - t) * (step_sd (pget mrr v) (pget vol v) dt * l v k))
  /\ forall z v, (v < m)%nat -> endpoint o x0 dt n z v = endpoint o x0 dt n zero_noise v + sumn (n * m) (fun q => response o x0 dt n v q * z q).
Proof.
  intros o Ho. destruct (endpoint_value o Ho) as (l & EC & K). exists l. split; [exact EC|].
  assert (G : forall v t k, (v < m)%nat -> (t < n)%nat -> (k < m)%nat -> response o x0 dt n v (t * m + k) = fade (pget mrr v) dt ^ (n - 1 - t) * (step_sd (pget mrr v) (pget vol v) dt * l v k)).
  { intros v t k Hv Ht Hk'. unfold response. rewrite K by auto. apply (unit_pick (fun t k => fade (pget mrr v) dt ^ (n - 1 - t) * (step_sd (pget mrr v) (pget vol v) dt * l v k)) t k); auto. }
  split; [exact G|]. intros z v Hv. rewrite S_block. specialize (K z v Hv).
  rewrite (S_ext n (fun t => sumn m (fun k => response o x0 dt n v (t * m + k) * z (t * m + k)%nat))
            (fun t => sumn m (fun k => fade (pget mrr v) dt ^ (n - 1 - t) * (step_sd (pget mrr v) (pget vol v) dt * l v k) * z (t * m + k)%nat))); [lra|].
  intros t Ht. apply S_ext. intros k Hk'. rewrite G by auto. reflexivity.
Qed.
End Endpoint.

(* ------------------------------------------------------------------ *)
(** ** C97 *)

(** The final values are an affine function of the noise numbers, so [endpoint_cov] is their covariance. *)
Theorem C97_affine : forall mean mrr vol C x0 dt n o z v,
  let m := length mean in
  (0 < m)%nat -> perV mrr m -> perV vol m -> (forall k, In k mrr -> 0 < k) -> posdef m C -> x0 <> [] -> Nat.divide (length x0) m -> 0 < dt ->
  ou_new np_cholesky (DNp1 (fins mean)) (DNp1 (fins mrr)) (DNp1 (fins vol)) (Some (farr m m C)) = Ok o -> (v < m)%nat ->
  endpoint o x0 dt n z v = endpoint o x0 dt n zero_noise v + sumn (n * m) (fun q => response o x0 dt n v q * z q).
Proof.
  intros mean mrr vol C x0 dt n o z v m Hm Hmr Hvol Hk HC Hx0 Hdiv Hdt Ho Hv.
  destruct (response_value mean mrr vol C x0 dt n Hm Hmr Hvol Hk HC Hx0 Hdiv Hdt o Ho) as (l & _ & _ & K). apply K. exact Hv.
Qed.
Print Assumptions C97_affine.

(** Covariance of the final values after n steps. *)
Theorem C97_covariance : forall mean mrr vol C x0 dt n o i j,
  let m := length mean in
  (0 < m)%nat -> perV mrr m -> perV vol m -> (forall k, In k mrr -> 0 < k) -> posdef m C -> x0 <> [] -> Nat.divide (length x0) m -> 0 < dt ->
  ou_new np_cholesky (DNp1 (fins mean)) (DNp1 (fins mrr)) (DNp1 (fins vol)) (Some (farr m m C)) = Ok o -> (i < m)%nat -> (j < m)%nat ->
  endpoint_cov o x0 dt n m i j
  = step_sd (pget mrr i) (pget vol i) dt * step_sd (pget mrr j) (pget vol j) dt * C i j * sumn n (fun t => exp (- ((pget mrr i + pget mrr j) * dt)) ^ (n - 1 - t)).
Proof.
  intros mean mrr vol C x0 dt n o i j m Hm Hmr Hvol Hk HC Hx0 Hdiv Hdt Ho Hi Hj.
  destruct (response_value mean mrr vol C x0 dt n Hm Hmr Hvol Hk HC Hx0 Hdiv Hdt o Ho) as (l & EC & K & _). unfold endpoint_cov. rewrite S_block, <- S_scal. apply S_ext. intros t Ht.
  rewrite (EC i j Hi Hj). unfold mmul, mtr. rewrite <- S_scal, <- S_scal_r. apply S_ext. intros k Hk'. fold m in K. rewrite !K by auto.
  replace (exp (- ((pget mrr i + pget mrr j) * dt))) with (fade (pget mrr i) dt * fade (pget mrr j) dt) by (unfold fade; rewrite <- exp_plus; f_equal; ring).
  rewrite Rpow_mult_distr. ring.
Qed.
Print Assumptions C97_covariance.

(** n steps of dt and one step of n*dt give the same covariance exactly when the two variates revert at the same rate or
    are uncorrelated.  In particular every variance is consistent (C22), but correlations between variates of different
    mean reversion rates depend on the step size. *)
Theorem C97_step_size : forall mean mrr vol C x0 dt n o i j,
  let m := length mean in
  (0 < m)%nat -> perV mrr m -> perV vol m -> (forall k, In k mrr -> 0 < k) -> (forall s, In s vol -> 0 < s) -> posdef m C -> x0 <> [] -> Nat.divide (length x0) m -> 0 < dt ->
  (2 <= n)%nat ->
  ou_new np_cholesky (DNp1 (fins mean)) (DNp1 (fins mrr)) (DNp1 (fins vol)) (Some (farr m m C)) = Ok o -> (i < m)%nat -> (j < m)%nat ->
  (endpoint_cov o x0 dt n m i j = endpoint_cov o x0 (INR n * dt) 1 m i j <-> pget mrr i = pget mrr j \/ C i j = 0).
Proof.
  intros mean mrr vol C x0 dt n o i j m Hm Hmr Hvol Hk Hs HC Hx0 Hdiv Hdt Hn Ho Hi Hj.
  assert (Hnd : 0 < INR n * dt) by (apply Rmult_lt_0_compat; [apply lt_0_INR; lia|auto]).
  unfold m. rewrite (C97_covariance mean mrr vol C x0 dt n o i j) by auto. rewrite (C97_covariance mean mrr vol C x0 (INR n * dt) 1 o i j) by auto.
  assert (Ki : 0 < pget mrr i) by (apply Hk, (pget_in _ m); auto). assert (Kj : 0 < pget mrr j) by (apply Hk, (pget_in _ m); auto).
  assert (Si : 0 < pget vol i) by (apply Hs, (pget_in _ m); auto). assert (Sj : 0 < pget vol j) by (apply Hs, (pget_in _ m); auto).
  rewrite !(step_sd_geo _ _ dt n) by (auto; lia). rewrite S_succ, S_0. replace (1 - 1 - 0)%nat with 0%nat by lia. rewrite pow_O.
  replace (exp (- ((pget mrr i + pget mrr j) * dt))) with (fade (pget mrr i) dt * fade (pget mrr j) dt) by (unfold fade; rewrite <- exp_plus; f_equal; ring).
  fold (geo n (fade (pget mrr i) dt * fade (pget mrr j) dt)). pose proof (geo_cs n (fade (pget mrr i) dt) (fade (pget mrr j) dt) (exp_pos _) (exp_pos _) Hn) as CS.
  assert (Pi : 0 < step_sd (pget mrr i) (pget vol i) dt) by (apply sqrt_lt_R0, step_sd_pos; auto). assert (Pj : 0 < step_sd (pget mrr j) (pget vol j) dt) by (apply sqrt_lt_R0, step_sd_pos; auto).
  set (si := step_sd (pget mrr i) (pget vol i) dt) in *. set (sj := step_sd (pget mrr j) (pget vol j) dt) in *. split.
  - intros E. destruct (Req_dec (C i j) 0) as [Z|Z]; [right; exact Z|left].
    assert (F : fade (pget mrr i) dt = fade (pget mrr j) dt).
    { apply CS. apply (Rmult_eq_reg_l (si * sj * C i j)); [rewrite E; ring|]. apply Rmult_integral_contrapositive_currified; [|auto]. apply Rmult_integral_contrapositive_currified; lra. }
    unfold fade in F. apply exp_inv in F. nra.
  - intros [E|E]; [|rewrite E; ring]. assert (F : fade (pget mrr i) dt = fade (pget mrr j) dt) by (rewrite E; reflexivity). apply CS in F. rewrite F. ring.
Qed.
Print Assumptions C97_step_size.

(** Rates 1 and 2, correlation 1/2: simulating two steps of one month is not simulating one step of two months. *)
Example C97_example : exists o,
  ou_new np_cholesky (DNp1 (fins [0; 0])) (DNp1 (fins [1; 2])) (DNp1 (fins [1; 1])) (Some (farr 2 2 (fun i j => if Nat.eqb i j then 1 else 1/2))) = Ok o
  /\ endpoint_cov o [0] (1/12) 2 2 0 1 <> endpoint_cov o [0] (INR 2 * (1/12)) 1 2 0 1
  /\ endpoint_cov o [0] (1/12) 2 2 1 1 = endpoint_cov o [0] (INR 2 * (1/12)) 1 2 1 1.
Proof.
  set (C := fun i j : nat => if Nat.eqb i j then 1 else 1/2).
  assert (HC : posdef 2 C).
  { split; [intros i j _ _; unfold mtr, C; rewrite (Nat.eqb_sym j i); reflexivity|]. intros x (i & Hi & Hx). unfold quad, C. rewrite !S_succ, !S_0. cbn [Nat.eqb].
    set (u := x 0%nat) in *. set (w := x 1%nat) in *. assert (N : u <> 0 \/ w <> 0) by (destruct i as [|[|i]]; [left|right|lia]; exact Hx). clearbody u w.
    assert (0 < u * u \/ 0 < w * w) by (destruct N; [left|right]; nra). pose proof (Rle_0_sqr (u + w)). unfold Rsqr in *. nra. }
  destruct (ou_new_ok (fins [0; 0]) (fins [1; 2]) (fins [1; 1]) 2 C HC) as (k & l & E & _). eexists. split; [exact E|].
  assert (T : forall i j, (i < 2)%nat -> (j < 2)%nat -> endpoint_cov (mkObj (mkOU (Row (fins [0; 0])) (Row (fins [1; 2])) (Row (fins [1; 1])) (Some (farr 2 2 C)) (Some (farr 2 2 l))) k unfitted) [0] (1/12) 2 2 i j
     = endpoint_cov (mkObj (mkOU (Row (fins [0; 0])) (Row (fins [1; 2])) (Row (fins [1; 1])) (Some (farr 2 2 C)) (Some (farr 2 2 l))) k unfitted) [0] (INR 2 * (1/12)) 1 2 i j <-> pget [1; 2] i = pget [1; 2] j \/ C i j = 0).
  { intros i j Hi Hj. apply (C97_step_size [0; 0] [1; 2] [1; 1] C [0] (1/12) 2 _ i j); auto; try lra; try (cbn; lia); try (right; reflexivity); try discriminate.
    - intros q [<-|[<-|[]]]; lra.
    - intros q [<-|[<-|[]]]; lra.
    - exists 2%nat. reflexivity. }
  split.
  - intros H. apply T in H; [|lia|lia]. unfold pget, C in H. cbn in H. lra.
  - apply T; [lia|lia|]. left. reflexivity.
Qed.
