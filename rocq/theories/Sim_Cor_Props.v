(** Properties C95-C97: correlated simulation models. *)
From Coq Require Import Reals Lra String ZArith List Arith Bool Lia FunctionalExtensionality Classical_Prop.
From Verif Require Import Base Num Sums Lin Sim_Model Sim_Spec Sim_Proofs Sim_Props Sim_Fit_Proofs Sim_Fit_Props Chol_Model Chol_Proofs Sim_Cor_Spec.
Import ListNotations.
Open Scope R_scope.

(* ------------------------------------------------------------------ *)
(** ** C95: which correlation matrices are accepted, and what they do to the paths *)

(** A symmetric matrix is accepted exactly when it is positive definite; anything that is not square is rejected. *)
Theorem C95_accepted_correlations : forall n C d v q, symmetric n C ->
  (posdef n C -> (exists o, bm_new np_cholesky (DNp1 d) (DNp1 v) (Some (farr n n C)) = Ok o)
                 /\ (exists o, ou_new np_cholesky (DNp1 d) (DNp1 q) (DNp1 v) (Some (farr n n C)) = Ok o))
  /\ (~ posdef n C -> bm_new np_cholesky (DNp1 d) (DNp1 v) (Some (farr n n C)) = Raise LinAlgError
                      /\ ou_new np_cholesky (DNp1 d) (DNp1 q) (DNp1 v) (Some (farr n n C)) = Raise LinAlgError).
Proof.
  intros n C d v q HS. destruct (np_cholesky_spec n C HS) as [H1 H2]. unfold bm_new, bm_init, ou_new, ou_init. cbn [to_row bind]. split; intros H.
  - destruct (H1 H) as (l & -> & _). cbn [bind]. split; eexists; reflexivity.
  - rewrite (H2 H). split; reflexivity.
Qed.
Print Assumptions C95_accepted_correlations.

Theorem C95_not_square : forall c d v q, nrow c <> ncol c ->
  bm_new np_cholesky (DNp1 d) (DNp1 v) (Some c) = Raise LinAlgError /\ ou_new np_cholesky (DNp1 d) (DNp1 q) (DNp1 v) (Some c) = Raise LinAlgError.
Proof.
  intros c d v q H. unfold bm_new, bm_init, ou_new, ou_init, np_cholesky. rewrite (proj2 (Nat.eqb_neq _ _) H). split; reflexivity.
Qed.
Print Assumptions C95_not_square.

Lemma nsum_nan : forall l, In NaN l -> nsum l = NaN.
Proof.
  induction l as [|a l IH]; intros H; [contradiction|]. cbn [nsum fold_right]. destruct H as [->|H]; [reflexivity|].
  change (nadd a (nsum l) = NaN). rewrite (IH H). destruct a; reflexivity.
Qed.
Lemma chol_cols_nan : forall a i j k, (j <= i)%nat -> (i < k)%nat -> a i j = NaN -> chol_cols a k = Raise LinAlgError.
Proof.
  intros a i j k Hji Hik E.
  assert (G : forall k L, chol_cols a k = Ok L -> (j < k)%nat -> (j < i)%nat -> L i j = NaN).
  { intros k0. induction k0 as [|k0 IH]; intros L HL Hj Hlt; [lia|]. cbn [chol_cols] in HL. apply bind_ok in HL as (L0 & H0 & HL). cbv zeta in HL.
    destruct (ngtb _ _); [|discriminate]. injection HL as <-. destruct (Nat.eqb_spec j k0) as [->|Hne]; [|apply IH; auto; lia].
    destruct (Nat.ltb_spec i k0); [lia|]. destruct (Nat.eqb_spec i k0); [lia|]. rewrite E. reflexivity. }
  assert (NL : forall k L, chol_cols a k = Ok L -> (i < k)%nat -> False).
  { intros k0. induction k0 as [|k0 IH]; intros L HL Hi; [lia|]. cbn [chol_cols] in HL. apply bind_ok in HL as (L0 & H0 & HL). cbv zeta in HL.
    destruct (Nat.eq_dec i k0) as [->|Hne]; [|apply (IH L0); auto; lia].
    assert (P : nsub (a k0 k0) (nsum (map (fun l => nmul (L0 k0 l) (L0 k0 l)) (seq 0 k0))) = NaN).
    { destruct (Nat.eq_dec j k0) as [->|Hj]; [rewrite E; reflexivity|]. rewrite nsum_nan; [destruct (a k0 k0); reflexivity|].
      apply in_map_iff. exists j. split; [|apply in_seq; lia]. rewrite (G k0 L0) by (auto; lia). reflexivity. }
    rewrite P in HL. discriminate. }
  assert (RZ : forall k, (exists L, chol_cols a k = Ok L) \/ chol_cols a k = Raise LinAlgError).
  { clear. intros k. induction k as [|k [(L & IH)|IH]]; [left; eexists; reflexivity| |right]; cbn [chol_cols]; rewrite IH; [|reflexivity]. cbn [bind]. cbv zeta.
    destruct (ngtb _ _); [left; eexists; reflexivity|right; reflexivity]. }
  destruct (RZ k) as [(L & H)|H]; [|exact H]. destruct (NL k L H Hik).
Qed.
(** A missing value on or below the diagonal is rejected. *)
Theorem C95_missing_correlation : forall n c d v q i j, nrow c = n -> ncol c = n -> (j <= i)%nat -> (i < n)%nat -> at2 c i j = NaN ->
  bm_new np_cholesky (DNp1 d) (DNp1 v) (Some c) = Raise LinAlgError /\ ou_new np_cholesky (DNp1 d) (DNp1 q) (DNp1 v) (Some c) = Raise LinAlgError.
Proof.
  intros n c d v q i j Hr Hc Hij Hi E. assert (N : np_cholesky c = Raise LinAlgError).
  { unfold np_cholesky. rewrite Hr, Hc, Nat.eqb_refl. rewrite (chol_cols_nan _ i j) by auto. reflexivity. }
  unfold bm_new, bm_init, ou_new, ou_init. cbn [to_row bind]. rewrite N. split; reflexivity.
Qed.
Print Assumptions C95_missing_correlation.

(** second moments of the correlated noise *)
Lemma shock_cov : forall m steps P l C z i j, white m steps P z -> meq m C (mmul m l (mtr l)) -> (i < m)%nat -> (j < m)%nat ->
  sum_tp steps P (fun t p => shock m P (Some l) z t p i * shock m P (Some l) z t p j) = INR (steps * P) * C i j.
Proof.
  intros m steps P l C z i j HW HC Hi Hj.
  rewrite (sum_tp_ext _ _ _ (fun t p => rsum (map (fun k => rsum (map (fun k' => (l i k * l j k') * (draw m P z t p k * draw m P z t p k')) (seq 0 m))) (seq 0 m)))).
  2:{ intros t p Ht Hp. cbn [shock]. rewrite rsum_mult. apply rsum_ext. intros k _. apply rsum_ext. intros k' _. ring. }
  rewrite sum_tp_rsum. rewrite (rsum_ext _ _ (fun k => INR (steps * P) * (l i k * l j k))).
  2:{ intros k Hk. apply in_seq in Hk. rewrite sum_tp_rsum.
      rewrite (rsum_ext _ _ (fun k' => if Nat.eqb k k' then INR (steps * P) * (l i k * l j k') else 0)).
      - apply (rsum_delta m k (fun k' => INR (steps * P) * (l i k * l j k'))). lia.
      - intros k' Hk'. apply in_seq in Hk'. rewrite sum_tp_scal. pose proof (HW k k' ltac:(lia) ltac:(lia)) as W.
        unfold sumn in W. unfold sum_tp. rewrite W. destruct (Nat.eqb k k'); ring. }
  rewrite rsum_scal. rewrite HC by auto. reflexivity.
Qed.

(** Simulated covariances.  With noise of zero cross moments and unit second moments, increments (BM), log increments (GBM)
    and one-step deviations (OU) have the covariances that the parameters prescribe. *)
Theorem C95_bm_covariance : forall d vol C x0 dt z steps P,
  let m := length d in
  (0 < m)%nat -> perV vol m -> posdef m C -> x0 <> [] -> Nat.divide (length x0) (m * P) -> 0 < dt -> white m steps P z ->
  exists o a,
    bm_new np_cholesky (DNp1 (fins d)) (DNp1 (fins vol)) (Some (farr m m C)) = Ok o
    /\ bm_path_sample o (fnoise z) (X0Data (DNp1 (fins x0))) (Some (Fin dt)) steps P None None None true = Ok (ONp a)
    /\ forall i j, (i < m)%nat -> (j < m)%nat ->
       let dx v t p := val (at2 a (t + 1) (p * m + v)) - val (at2 a t (p * m + v)) - nth v d 0 * dt in
       sum_tp steps P (fun t p => dx i t p * dx j t p) = INR (steps * P) * (pget vol i * pget vol j * C i j * dt).
Proof.
  intros d vol C x0 dt z steps P m Hm Hvol HC Hx0 Hdiv Hdt HW. destruct (proj1 (np_cholesky_spec m C (proj1 HC)) HC) as (l & El & _ & _ & EC).
  destruct (C20_bm_increments np_cholesky d vol (Some (farr m m C)) (Some l) x0 dt z steps P Hm Hvol El Hx0 Hdiv Hdt) as (o & a & Ho & Ha & _ & _ & K).
  exists o, a. split; [exact Ho|]. split; [exact Ha|]. intros i j Hi Hj dx.
  rewrite (sum_tp_ext _ _ _ (fun t p => (pget vol i * pget vol j * dt) * (shock m P (Some l) z t p i * shock m P (Some l) z t p j))).
  - rewrite sum_tp_scal, (shock_cov m steps P l C) by auto. ring.
  - assert (E : forall v t p, (v < m)%nat -> (t < steps)%nat -> (p < P)%nat -> dx v t p = pget vol v * sqrt dt * shock m P (Some l) z t p v).
    { intros v t p Hv Ht Hp. unfold dx. destruct (K t p v Ht Hp Hv) as (x & y & E1 & E2 & E3). fold m in E1, E2, E3. rewrite E1, E2. cbn [val]. rewrite E3. ring. }
    intros t p Ht Hp. rewrite !E by auto. rewrite <- (sqrt_sqrt dt) at 3 by lra. ring.
Qed.
Print Assumptions C95_bm_covariance.

Theorem C95_gbm_covariance : forall d vol C x0 dt z steps P,
  let m := length d in
  (0 < m)%nat -> perV vol m -> posdef m C -> x0 <> [] -> (forall s, In s x0 -> 0 < s) -> Nat.divide (length x0) (m * P) -> 0 < dt -> white m steps P z ->
  exists o a,
    bm_new np_cholesky (DNp1 (fins d)) (DNp1 (fins vol)) (Some (farr m m C)) = Ok o
    /\ gbm_path_sample o (fnoise z) (X0Data (DNp1 (fins x0))) (Some (Fin dt)) steps P None None None true = Ok (ONp a)
    /\ forall i j, (i < m)%nat -> (j < m)%nat ->
       let lr v t p := ln (val (at2 a (t + 1) (p * m + v)) / val (at2 a t (p * m + v))) - (nth v d 0 - pget vol v ^ 2 / 2) * dt in
       sum_tp steps P (fun t p => lr i t p * lr j t p) = INR (steps * P) * (pget vol i * pget vol j * C i j * dt).
Proof.
  intros d vol C x0 dt z steps P m Hm Hvol HC Hx0 Hpos Hdiv Hdt HW. destruct (proj1 (np_cholesky_spec m C (proj1 HC)) HC) as (l & El & _ & _ & EC).
  destruct (C21_gbm_paths np_cholesky d vol (Some (farr m m C)) (Some l) x0 dt z steps P Hm Hvol El Hx0 Hdiv Hdt) as (o & a & Ho & Ha & _ & _ & K).
  exists o, a. split; [exact Ho|]. split; [exact Ha|]. intros i j Hi Hj lr.
  rewrite (sum_tp_ext _ _ _ (fun t p => (pget vol i * pget vol j * dt) * (shock m P (Some l) z t p i * shock m P (Some l) z t p j))).
  - rewrite sum_tp_scal, (shock_cov m steps P l C) by auto. ring.
  - assert (E : forall v t p, (v < m)%nat -> (t < steps)%nat -> (p < P)%nat -> lr v t p = pget vol v * sqrt dt * shock m P (Some l) z t p v).
    { intros v t p Hv Ht Hp. unfold lr. destruct (K t p v ltac:(lia) Hp Hv) as (K1 & _). fold m in K1.
      destruct K1 as (x & E1 & _ & K2); [apply Hpos, nth_In, Nat.mod_upper_bound; destruct x0; [congruence|discriminate]|].
      destruct (K2 Ht) as (y & E2 & E3). rewrite E1, E2. cbn [val]. rewrite E3. ring. }
    intros t p Ht Hp. rewrite !E by auto. rewrite <- (sqrt_sqrt dt) at 3 by lra. ring.
Qed.
Print Assumptions C95_gbm_covariance.

Theorem C95_ou_covariance : forall mean mrr vol C x0 dt z steps P,
  let m := length mean in
  (0 < m)%nat -> perV mrr m -> perV vol m -> (length mrr = 1%nat \/ P = 1%nat) -> (forall k, In k mrr -> 0 < k) ->
  posdef m C -> x0 <> [] -> Nat.divide (length x0) (m * P) -> 0 < dt -> white m steps P z ->
  exists o a,
    ou_new np_cholesky (DNp1 (fins mean)) (DNp1 (fins mrr)) (DNp1 (fins vol)) (Some (farr m m C)) = Ok o
    /\ ou_path_sample o (fnoise z) (X0Data (DNp1 (fins x0))) (Some (Fin dt)) steps P None None None true = Ok (ONp a)
    /\ forall i j, (i < m)%nat -> (j < m)%nat ->
       let dev v t p := val (at2 a (t + 1) (p * m + v))
                        - (nth v mean 0 + (val (at2 a t (p * m + v)) - nth v mean 0) * exp (- (pget mrr v * dt))) in
       sum_tp steps P (fun t p => dev i t p * dev j t p)
       = INR (steps * P) * (step_sd (pget mrr i) (pget vol i) dt * step_sd (pget mrr j) (pget vol j) dt * C i j).
Proof.
  intros mean mrr vol C x0 dt z steps P m Hm Hmr Hvol HP Hk HC Hx0 Hdiv Hdt HW. destruct (proj1 (np_cholesky_spec m C (proj1 HC)) HC) as (l & El & _ & _ & EC).
  destruct (C22_ou_exact_step np_cholesky mean mrr vol (Some (farr m m C)) (Some l) x0 dt z steps P Hm Hmr Hvol HP Hk El Hx0 Hdiv Hdt) as (o & a & Ho & Ha & _ & _ & K).
  exists o, a. split; [exact Ho|]. split; [exact Ha|]. intros i j Hi Hj dev.
  rewrite (sum_tp_ext _ _ _ (fun t p => (step_sd (pget mrr i) (pget vol i) dt * step_sd (pget mrr j) (pget vol j) dt) * (shock m P (Some l) z t p i * shock m P (Some l) z t p j))).
  - rewrite sum_tp_scal, (shock_cov m steps P l C) by auto. ring.
  - assert (E : forall v t p, (v < m)%nat -> (t < steps)%nat -> (p < P)%nat -> dev v t p = step_sd (pget mrr v) (pget vol v) dt * shock m P (Some l) z t p v).
    { intros v t p Hv Ht Hp. unfold dev. destruct (K p v Hp Hv) as (_ & K1 & _). destruct (K1 t Ht) as (x & y & s & E1 & E2 & E3 & Hs & Es). fold m in E1, E2, E3. rewrite E1, E2. cbn [val].
      rewrite E3. replace (step_sd (pget mrr v) (pget vol v) dt) with s; [ring|]. unfold step_sd. rewrite <- Es. symmetry. apply sqrt_pow2. exact Hs. }
    intros t p Ht Hp. rewrite !E by auto. ring.
Qed.
Print Assumptions C95_ou_covariance.

(** Only the entries on and below the diagonal influence the paths. *)
Theorem C95_lower_triangle : forall d vol q n C C', (forall i j, (j <= i)%nat -> (i < n)%nat -> C i j = C' i j) ->
  forall o, bm_new np_cholesky d vol (Some (farr n n C)) = Ok o ->
  exists o', bm_new np_cholesky d vol (Some (farr n n C')) = Ok o'
    /\ bm_path_sample o' = bm_path_sample o /\ gbm_path_sample o' = gbm_path_sample o
    /\ forall w, ou_new np_cholesky d q vol (Some (farr n n C)) = Ok w ->
       exists w', ou_new np_cholesky d q vol (Some (farr n n C')) = Ok w' /\ ou_path_sample w' = ou_path_sample w.
Proof.
  intros d vol q n C C' H o Ho. pose proof (np_cholesky_lower_only n C C' H) as E. unfold bm_new, bm_init in Ho.
  destruct (to_row d) as [dr|e] eqn:Ed; [|discriminate]. destruct (to_row vol) as [vr|e] eqn:Ev; [|discriminate]. cbn [bind] in Ho.
  destruct (np_cholesky (farr n n C)) as [L|e] eqn:EL; [|discriminate]. cbn [bind] in Ho. injection Ho as <-.
  unfold bm_new, bm_init, ou_new, ou_init. rewrite Ed, Ev, <- E, EL. cbn [bind]. eexists. split; [reflexivity|].
  split; [reflexivity|]. split; [reflexivity|]. intros w Hw. destruct (to_row q) as [qr|e]; [|discriminate]. cbn [bind] in *. injection Hw as <-.
  eexists. split; [reflexivity|]. reflexivity.
Qed.
Print Assumptions C95_lower_triangle.

(** A correlation matrix of the wrong size is accepted at construction; every simulation fails. *)
Theorem C95_wrong_size : forall n C d vol x0 dt z steps P, posdef n C ->
  d <> [] -> n <> length d -> x0 <> [] -> Nat.divide (length x0) (length d * P) -> 0 < dt ->
  exists o, bm_new np_cholesky (DNp1 d) (DNp1 vol) (Some (farr n n C)) = Ok o
    /\ bm_path_sample o z (X0Data (DNp1 x0)) (Some (Fin dt)) steps P None None None true = Raise ValueError
    /\ gbm_path_sample o z (X0Data (DNp1 x0)) (Some (Fin dt)) steps P None None None true = Raise ValueError.
Proof.
  intros n C d vol x0 dt z steps P HC Hd Hn Hx Hdiv Hdt. destruct (proj1 (np_cholesky_spec n C (proj1 HC)) HC) as (l & El & _).
  unfold bm_new, bm_init. cbn [to_row bind]. rewrite El. cbn [bind]. eexists. split; [reflexivity|].
  unfold bm_path_sample, gbm_path_sample. cbn [o_fit o_par]. rewrite !path_sample_plain by auto.
  assert (X : forall x : list num, length x = length x0 -> exists r, set_x0 x (length d * P) = Ok r).
  { intros x Hl. unfold set_x0. destruct x as [|x' x'']; [destruct x0; [congruence|discriminate]|]. rewrite Hl. destruct Hdiv as [q ->].
    rewrite Nat.div_mul by (destruct x0; [congruence|discriminate]). rewrite (Nat.mul_comm q), Nat.eqb_refl. eexists; reflexivity. }
  assert (Z : Nat.eqb (length d) 0 = false) by (destruct d; [congruence|reflexivity]).
  assert (B : forall loc sc, fill_noise (length d) loc sc (Some (farr n n l)) z = Raise ValueError).
  { intros loc sc. unfold fill_noise. cbn [nrow ncol farr]. rewrite (proj2 (Nat.eqb_neq n (length d)) Hn). reflexivity. }
  split.
  - unfold bm_path_np. cbn [bm_drift bm_L bm_vol]. destruct (X x0 eq_refl) as (r & ->). cbn [bind]. rewrite Z, B. reflexivity.
  - unfold gbm_path_np. cbn [bm_drift bm_L bm_vol]. destruct (X (map nlog x0) (map_length _ _)) as (r & ->). cbn [bind]. rewrite Z.
    unfold gbm_mean. cbn [bm_drift bm_vol]. destruct (_ || _); [|reflexivity]. cbn [bind]. rewrite B. reflexivity.
Qed.
Print Assumptions C95_wrong_size.

(** 2 x 2 correlation rho: accepted exactly for -1 < rho < 1. *)
Definition cor2 (r : R) : mat := fun i j => if Nat.eqb i j then 1 else r.
Lemma cor2_posdef : forall r, posdef 2 (cor2 r) <-> -1 < r < 1.
Proof.
  intros r. assert (Q : forall x, quad 2 (cor2 r) x = x 0%nat * x 0%nat + 2 * r * x 0%nat * x 1%nat + x 1%nat * x 1%nat) by (intros x; unfold quad, cor2; rewrite !S_succ, !S_0; cbn [Nat.eqb]; ring).
  split.
  - intros [_ H]. pose proof (H (fun i => match i with O => 1 | _ => 1 end)) as H1. pose proof (H (fun i => match i with O => 1 | _ => -1 end)) as H2. rewrite Q in H1, H2.
    cbn beta iota in H1, H2. assert (N1 : nonzero 2 (fun i : nat => match i with O => 1 | _ => 1 end)) by (exists 0%nat; split; [lia|lra]).
    assert (N2 : nonzero 2 (fun i : nat => match i with O => 1 | _ => -1 end)) by (exists 0%nat; split; [lia|lra]). specialize (H1 N1). specialize (H2 N2). lra.
  - intros Hr. split.
    + intros i j Hi Hj. unfold mtr, cor2. rewrite (Nat.eqb_sym j i). reflexivity.
    + intros x (i & Hi & Hx). rewrite Q. set (u := x 0%nat) in *. set (w := x 1%nat) in *.
      assert (N : u <> 0 \/ w <> 0) by (destruct i as [|[|i]]; [left|right|lia]; exact Hx). clearbody u w.
      destruct (Req_dec w 0) as [->|Hw]; [destruct N; [nra|lra]|].
      assert (0 < w * w) by nra. assert (0 < (1 - r * r)) by nra. pose proof (Rle_0_sqr (u + r * w)). unfold Rsqr in *.
      assert (0 < (1 - r * r) * (w * w)) by (apply Rmult_lt_0_compat; auto). nra.
Qed.
Theorem C95_two_variates : forall r d v, (exists o, bm_new np_cholesky (DNp1 d) (DNp1 v) (Some (farr 2 2 (cor2 r))) = Ok o) <-> -1 < r < 1.
Proof.
  intros r d v. rewrite <- cor2_posdef. assert (HS : symmetric 2 (cor2 r)) by (intros i j _ _; unfold mtr, cor2; rewrite (Nat.eqb_sym j i); reflexivity).
  destruct (C95_accepted_correlations 2 (cor2 r) d v d HS) as [H1 H2]. split.
  - intros (o & Ho). apply NNPP. intros N. destruct (H2 N) as [E _]. rewrite E in Ho. discriminate.
  - intros H. apply H1, H.
Qed.
Print Assumptions C95_two_variates.

(** Correlation 0.6, noise rows (1,1) and (1,-1): the hypotheses of the covariance theorems. *)
Example C95_example : posdef 2 (cor2 (6/10)) /\ white 2 2 1 (fun i => match i with 3%nat => -1 | _ => 1 end).
Proof.
  split; [apply cor2_posdef; lra|]. intros k k' Hk Hk'. unfold draw. destruct k as [|[|k]]; [| |lia]; destruct k' as [|[|k']]; try lia; cbn; lra.
Qed.
