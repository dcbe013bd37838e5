(** Property C96: likelihoods of correlated models. *)
From Coq Require Import Reals Lra String ZArith List Arith Bool Lia FunctionalExtensionality Classical_Prop.
From Verif Require Import Base Num Sums Lin Sim_Model Sim_Spec Sim_Proofs Sim_Props Sim_Fit_Proofs Sim_Fit_Props Chol_Model Chol_Proofs Sim_Cor_Spec.
Import ListNotations.
Open Scope R_scope.

(* ------------------------------------------------------------------ *)
(** ** Normal densities in terms of a triangular factor *)

Lemma prodn_pos : forall n f, (forall i, (i < n)%nat -> 0 < f i) -> 0 < prodn n f.
Proof. induction n as [|n IH]; intros f H; cbn [prodn]; [lra|]. apply Rmult_lt_0_compat; [apply IH; auto|apply H; lia]. Qed.
Lemma prodn_ext : forall n f g, (forall i, (i < n)%nat -> f i = g i) -> prodn n f = prodn n g.
Proof. induction n as [|n IH]; intros f g H; cbn [prodn]; [reflexivity|]. rewrite (IH f g), (H n) by auto. reflexivity. Qed.
Lemma ln_prodn : forall n f, (forall i, (i < n)%nat -> 0 < f i) -> ln (prodn n f) = sumn n (fun i => ln (f i)).
Proof.
  induction n as [|n IH]; intros f H; cbn [prodn]; [rewrite S_0; apply ln_1|]. rewrite ln_mult, IH, S_succ by (try apply prodn_pos; auto). reflexivity.
Qed.
Lemma ln_sqrt : forall x, 0 < x -> ln (sqrt x) = ln x / 2.
Proof. intros x Hx. rewrite <- (sqrt_sqrt x) at 2 by lra. rewrite ln_mult by (apply sqrt_lt_R0; auto). field. Qed.
Lemma ln_powr : forall x n, 0 < x -> ln (x ^ n) = INR n * ln x.
Proof.
  intros x n Hx. induction n as [|n IH]; [cbn; rewrite ln_1; ring|]. rewrite S_INR. cbn [pow]. rewrite ln_mult by (auto; apply pow_lt; auto). rewrite IH. ring.
Qed.
Lemma S_const : forall n c, sumn n (fun _ => c) = INR n * c.
Proof. induction n as [|n IH]; intros c; [rewrite S_0; cbn; ring|]. rewrite S_succ, IH, S_INR. ring. Qed.

Lemma det_gram : forall m A, lower m A -> det m (mmul m A (mtr A)) = prodn m (fun i => A i i) ^ 2.
Proof.
  intros m A HA. rewrite det_lower_mul by auto. assert (U : upper m (mtr A)) by (intros i j Hi Hj Hij; unfold mtr; apply HA; auto).
  pose proof (det_upper_mul m (mtr A) mid U) as E. rewrite (det_ext m _ (mtr A)) in E by apply mmul_id_r. rewrite E, det_mid. unfold mtr. ring.
Qed.

Definition mv (m : nat) (A : mat) (z : nat -> R) (i : nat) : R := sumn m (fun k => A i k * z k).
Lemma quad_inverse : forall m A S Q x z, lower m A -> (forall i, (i < m)%nat -> 0 < A i i) -> meq m S (mmul m A (mtr A)) -> meq m (mmul m S Q) mid ->
  (forall i, (i < m)%nat -> x i = mv m A z i) -> quad m Q x = sumn m (fun k => z k ^ 2).
Proof.
  intros m A S Q x z HL HP HS HQ HX. destruct (lower_inverse m A HL HP) as (B & _ & _ & BA & AB).
  (* transpose(A) Q = B *)
  assert (E : meq m (mmul m (mtr A) Q) B).
  { intros i j Hi Hj. rewrite <- (mmul_id_l m (mmul m (mtr A) Q)) by auto.
    rewrite (mmul_ext m mid (mmul m B A) (mmul m (mtr A) Q) (mmul m (mtr A) Q)) by (auto; try apply meq_refl; apply meq_sym, BA).
    rewrite mmul_assoc. rewrite (mmul_ext m B B (mmul m A (mmul m (mtr A) Q)) mid); auto; [apply mmul_id_r; auto|apply meq_refl|].
    intros a b Ha Hb. rewrite <- mmul_assoc. rewrite (mmul_ext m (mmul m A (mtr A)) S Q Q) by (auto; try apply meq_refl; apply meq_sym, HS). apply HQ; auto. }
  unfold quad. rewrite (S_ext m _ (fun i => sumn m (fun k => z k * (A i k * sumn m (fun j => Q i j * x j))))).
  2:{ intros i Hi. rewrite (S_ext m _ (fun j => (sumn m (fun k => A i k * z k)) * (Q i j * x j))) by (intros; rewrite (HX i Hi); unfold mv; ring).
      rewrite S_scal, <- S_scal_r. apply S_ext. intros k Hk. ring. }
  rewrite S_swap. apply S_ext. intros k Hk. rewrite S_scal.
  assert (F : sumn m (fun i => A i k * sumn m (fun j => Q i j * x j)) = z k).
  { rewrite (S_ext m _ (fun i => sumn m (fun j => (mtr A k i * Q i j) * x j))) by (intros; rewrite <- S_scal; apply S_ext; intros; unfold mtr; ring).
    rewrite S_swap. rewrite (S_ext m _ (fun j => B k j * x j)) by (intros j Hj; rewrite S_scal_r; f_equal; apply (E k j Hk Hj)).
    rewrite (S_ext m _ (fun j => sumn m (fun l => B k j * A j l * z l))) by (intros j Hj; rewrite (HX j Hj); unfold mv; rewrite <- S_scal; apply S_ext; intros; ring).
    rewrite S_swap. rewrite (S_ext m _ (fun l => mid k l * z l)) by (intros l Hl; rewrite S_scal_r; f_equal; apply (BA k l Hk Hl)).
    rewrite (S_single m _ k Hk); [unfold mid; rewrite Nat.eqb_refl; ring|]. intros l _ Hne. unfold mid. rewrite (proj2 (Nat.eqb_neq k l)) by auto. ring. }
  rewrite F. ring.
Qed.

Lemma mvn_value_factor : forall n m mu S Q f A z, lower m A -> (forall i, (i < m)%nat -> 0 < A i i) -> meq m S (mmul m A (mtr A)) -> meq m (mmul m S Q) mid ->
  (forall t i, (t < n)%nat -> (i < m)%nat -> f t i = mu i + mv m A (z t) i) ->
  mvn_value n m mu S Q f = sumn n (fun t => sumn m (fun k => z t k ^ 2) / 2) + INR n * (INR m / 2 * ln (2 * PI) + ln (det m S) / 2).
Proof.
  intros n m mu S Q f A z HL HP HS HQ HF. pose proof PI_RGT_0 as Hpi.
  assert (HD : 0 < det m S) by (rewrite (det_ext m S _ HS), det_gram by auto; apply pow_lt, prodn_pos; auto).
  assert (H2 : 0 < (2 * PI) ^ m * det m S) by (apply Rmult_lt_0_compat; [apply pow_lt; lra|auto]).
  unfold mvn_value. rewrite <- S_const, <- S_plus, <- S_opp. apply S_ext. intros t Ht. unfold mvn_pdf, Rdiv.
  rewrite ln_mult by (try apply exp_pos; apply Rinv_0_lt_compat, sqrt_lt_R0; auto). rewrite ln_exp, ln_Rinv, ln_sqrt, ln_mult, ln_powr by (auto; try lra; try apply sqrt_lt_R0; auto; apply pow_lt; lra).
  rewrite (quad_inverse m A S Q _ (z t)) by (auto; intros i Hi; rewrite HF by auto; ring). field.
Qed.

(** every positive definite matrix has an inverse *)
Lemma inverse_exists : forall m S, posdef m S -> exists Q, meq m (mmul m S Q) mid.
Proof.
  intros m S HS. destruct (cholesky_exists m S HS) as (A & HL & HP & E). destruct (lower_inverse m A HL HP) as (B & _ & _ & BA & AB).
  exists (mmul m (mtr B) B). intros i j Hi Hj. rewrite (mmul_ext m S (mmul m A (mtr A)) (mmul m (mtr B) B) (mmul m (mtr B) B)) by (auto; apply meq_refl).
  rewrite mmul_assoc. rewrite (mmul_ext m A A (mmul m (mtr A) (mmul m (mtr B) B)) B); auto; [apply meq_refl|].
  intros a b Ha Hb. rewrite <- mmul_assoc. rewrite (mmul_ext m (mmul m (mtr A) (mtr B)) mid B B); auto; [apply mmul_id_l; auto| |apply meq_refl].
  intros u w Hu Hw. rewrite <- mtr_mmul. unfold mtr at 1. rewrite BA by auto. unfold mid. rewrite (Nat.eqb_sym w u). reflexivity.
Qed.

Lemma quad_scaled : forall m C s x, quad m (fun i j => s i * s j * C i j) x = quad m C (fun i => s i * x i).
Proof. intros. unfold quad. apply S_ext. intros i Hi. apply S_ext. intros j Hj. ring. Qed.
Lemma posdef_scaled : forall m C s, posdef m C -> (forall i, (i < m)%nat -> 0 < s i) -> posdef m (fun i j => s i * s j * C i j).
Proof.
  intros m C s [HS HP] Hs. split.
  - intros i j Hi Hj. unfold mtr. rewrite (HS i j Hi Hj). unfold mtr. ring.
  - intros x (i & Hi & Hx). rewrite quad_scaled. apply HP. exists i. split; [auto|]. specialize (Hs i Hi). intros E. apply Rmult_integral in E. destruct E; lra.
Qed.
Lemma posdef_ext : forall m A B, meq m A B -> posdef m A -> posdef m B.
Proof.
  intros m A B E [HS HP]. split.
  - intros i j Hi Hj. unfold mtr. rewrite <- !E by auto. apply HS; auto.
  - intros x Hx. replace (quad m B x) with (quad m A x); [auto|]. unfold quad. apply S_ext. intros i Hi. apply S_ext. intros j Hj. rewrite E by auto. reflexivity.
Qed.

(** the common part of the three likelihoods *)
Lemma nll_with_mvn : forall mvn n m mean std dx mu s C f Q V, mvn_law mvn -> posdef m C ->
  length mean = m -> length std = m -> (forall i, (i < m)%nat -> nth i mean NaN = Fin (mu i)) -> (forall i, (i < m)%nat -> nth i std NaN = Fin (s i) /\ 0 < s i) ->
  meq m V (fun i j => s i * s j * C i j) -> meq m (mmul m V Q) mid ->
  nrow dx = n -> ncol dx = m -> (forall t j, (t < n)%nat -> (j < m)%nat -> at2 dx t j = Fin (f t j)) ->
  nll_with mvn (Some (farr m m C)) mean std dx = Ok (Fin (mvn_value n m mu V Q f)).
Proof.
  intros mvn n m mean std dx mu s C f Q V Hmvn HC Hm Hs Hmu Hsd HV HQ Hr Hc Hf. unfold nll_with. cbn [nrow farr]. rewrite Hs, Nat.eqb_refl.
  apply Hmvn; auto.
  - apply (posdef_ext m (fun i j => s i * s j * C i j)); [apply meq_sym, HV|]. apply posdef_scaled; auto. intros; apply Hsd; auto.
  - intros i j Hi Hj. cbn [dcd at2 farr]. destruct (Hsd i Hi) as [-> _]. destruct (Hsd j Hj) as [-> _]. cbn [nmul]. rewrite HV by auto. f_equal. ring.
Qed.

Lemma bget_nth : forall l m i, length l = m -> (i < m)%nat -> bget l i = nth i l NaN.
Proof. intros l m i Hl Hi. unfold bget. destruct (Nat.eqb_spec (length l) 1); [replace i with 0%nat by lia|]; reflexivity. Qed.
Lemma bm_new_ok : forall d vol m C, posdef m C -> exists k l, bm_new np_cholesky (DNp1 d) (DNp1 vol) (Some (farr m m C)) = Ok (mkObj (mkBM d vol (Some (farr m m C)) (Some (farr m m l))) k unfitted)
   /\ lower m l /\ (forall i, (i < m)%nat -> 0 < l i i) /\ meq m C (mmul m l (mtr l)) /\ np_cholesky (farr m m C) = Ok (farr m m l).
Proof.
  intros d vol m C HC. destruct (proj1 (np_cholesky_spec m C (proj1 HC)) HC) as (l & El & H1 & H2 & H3). unfold bm_new, bm_init. cbn [to_row bind]. rewrite El. cbn [bind].
  eexists; exists l. split; [reflexivity|]. auto.
Qed.

(* ------------------------------------------------------------------ *)
(** ** C96: likelihoods of correlated models *)

(** BM: increments scored under mean drift*dt and covariance vol_i vol_j cor_ij dt. *)
Theorem C96_bm_nll : forall infer mvn d vol C V Q a x n dt o,
  let m := length d in
  mvn_law mvn -> (0 < m)%nat -> length vol = m -> (forall s, In s vol -> 0 < s) -> 0 < dt -> posdef m C ->
  meq m V (fun i j => nth i vol 0 * nth j vol 0 * C i j * dt) -> meq m (mmul m V Q) mid -> observed a n m x ->
  bm_new np_cholesky (DNp1 (fins d)) (DNp1 (fins vol)) (Some (farr m m C)) = Ok o ->
  snd (nll infer (bm_nll_np mvn) o (DNp2 a) (Some (Fin dt))) = Ok (Fin (mvn_value n m (fun v => nth v d 0 * dt) V Q (incr x))).
Proof.
  intros infer mvn d vol C V Q a x n dt o m Hmvn Hm Hvol Hpos Hdt HC HV HQ (Hr & Hc & Hx) Ho.
  destruct (bm_new_ok (fins d) (fins vol) m C HC) as (k & l & E & _). rewrite E in Ho. injection Ho as <-.
  unfold nll. rewrite preprocess_np2 by lia. cbn [snd o_par]. unfold bm_nll_np. cbn [bm_cor bm_drift bm_vol].
  apply (nll_with_mvn _ _ _ _ _ _ _ (fun i => nth i vol 0 * sqrt dt) C); auto.
  - rewrite map_length. apply length_fins.
  - unfold scale_dt. rewrite map_length, length_fins. auto.
  - intros i Hi. rewrite (nth_indep _ NaN (nmul NaN (Fin dt))) by (rewrite map_length, length_fins; auto). rewrite (map_nth (fun y => nmul y (Fin dt))), nth_fins by auto. reflexivity.
  - intros i Hi. split.
    + rewrite <- (bget_nth _ m) by (auto; unfold scale_dt; rewrite map_length, length_fins; auto). rewrite (scale_dt_get vol dt m) by (auto; try lra; right; auto). rewrite pget_full by lia. reflexivity.
    + apply Rmult_lt_0_compat; [apply Hpos, nth_In; lia|apply sqrt_lt_R0; auto].
  - intros i j Hi Hj. rewrite HV by auto. rewrite <- (sqrt_sqrt dt) at 1 by lra. ring.
  - cbn. lia.
  - intros t j Ht Hj. cbn [diff0 at2]. rewrite !Hx by (auto; lia). unfold incr. rewrite Nat.add_1_r. reflexivity.
Qed.
Print Assumptions C96_bm_nll.

(** GBM: log returns scored with mean drift - vol^2/2, without the factor dt that path_sample applies. *)
Theorem C96_gbm_nll : forall infer mvn d vol C V Q a x n dt o,
  let m := length d in
  mvn_law mvn -> (0 < m)%nat -> length vol = m -> (forall s, In s vol -> 0 < s) -> 0 < dt -> posdef m C ->
  meq m V (fun i j => nth i vol 0 * nth j vol 0 * C i j * dt) -> meq m (mmul m V Q) mid -> observed a n m x ->
  (forall t v, (t <= n)%nat -> (v < m)%nat -> 0 < x t v) ->
  bm_new np_cholesky (DNp1 (fins d)) (DNp1 (fins vol)) (Some (farr m m C)) = Ok o ->
  snd (nll infer (gbm_nll_np mvn) o (DNp2 a) (Some (Fin dt)))
  = Ok (Fin (mvn_value n m (fun v => nth v d 0 - nth v vol 0 ^ 2 / 2) V Q (incr (fun t v => ln (x t v))))).
Proof.
  intros infer mvn d vol C V Q a x n dt o m Hmvn Hm Hvol Hpos Hdt HC HV HQ (Hr & Hc & Hx) Hxp Ho.
  destruct (bm_new_ok (fins d) (fins vol) m C HC) as (k & l & E & _). rewrite E in Ho. injection Ho as <-.
  unfold nll. rewrite preprocess_np2 by lia. cbn [snd o_par]. unfold gbm_nll_np, gbm_mean. cbn [bm_cor bm_drift bm_vol].
  rewrite !length_fins. fold m. rewrite Hvol, Nat.eqb_refl. cbn [orb bind]. replace (if Nat.eqb m 1 then m else m) with m by (destruct (Nat.eqb m 1); reflexivity).
  apply (nll_with_mvn _ _ _ _ _ _ _ (fun i => nth i vol 0 * sqrt dt) C); auto.
  - rewrite map_length, seq_length. reflexivity.
  - unfold scale_dt. rewrite map_length, length_fins. auto.
  - intros i Hi. rewrite nth_map_seq by auto. rewrite !(bget_fins _ m) by (auto; right; auto). rewrite !pget_full by (auto; lia). cbn. f_equal. field.
  - intros i Hi. split.
    + rewrite <- (bget_nth _ m) by (auto; unfold scale_dt; rewrite map_length, length_fins; auto). rewrite (scale_dt_get vol dt m) by (auto; try lra; right; auto). rewrite pget_full by lia. reflexivity.
    + apply Rmult_lt_0_compat; [apply Hpos, nth_In; lia|apply sqrt_lt_R0; auto].
  - intros i j Hi Hj. rewrite HV by auto. rewrite <- (sqrt_sqrt dt) at 1 by lra. ring.
  - cbn. lia.
  - intros t j Ht Hj. cbn [logret at2]. rewrite !Hx by (auto; lia). unfold incr. rewrite Nat.add_1_r.
    assert (0 < x t j) by (apply Hxp; auto; lia). assert (0 < x (S t) j) by (apply Hxp; auto; lia).
    rewrite ndiv_fin by lra. rewrite nlog_fin by (apply Rdiv_lt_0_compat; auto).
    unfold Rdiv. rewrite ln_mult, ln_Rinv by (auto; apply Rinv_0_lt_compat; auto). reflexivity.
Qed.
Print Assumptions C96_gbm_nll.

(** OU: one-step deviations from the conditional mean, scored under the covariance that path_sample uses (C95). *)
Lemma mvn_value_shift : forall n m mu mu' V Q f f', (forall t i, (t < n)%nat -> (i < m)%nat -> f t i - mu i = f' t i - mu' i) ->
  mvn_value n m mu V Q f = mvn_value n m mu' V Q f'.
Proof.
  intros n m mu mu' V Q f f' H. unfold mvn_value. f_equal. apply S_ext. intros t Ht. unfold mvn_pdf. f_equal. f_equal. f_equal. f_equal. f_equal.
  unfold quad. apply S_ext. intros i Hi. apply S_ext. intros j Hj. rewrite !H by auto. reflexivity.
Qed.
Lemma ou_terms_len : forall mean mrr vol cor L dt V mt sc, length mean = V -> perV mrr V -> length vol = V ->
  ou_mean_term (mkOU (Row mean) (Row mrr) (Row vol) cor L) dt = Ok (Row mt) -> ou_scale (mkOU (Row mean) (Row mrr) (Row vol) cor L) dt = Ok (Row sc) ->
  length mt = V /\ length sc = V.
Proof.
  intros mean mrr vol cor L dt V mt sc Hme Hmr Hvo E1 E2. unfold ou_mean_term, ou_scale, ou_factor in *. cbn [ou_mean ou_mrr ou_vol pmap] in *. split.
  - destruct (pmap2_rows nmul mean (map (fun f => nsub (Fin 1) f) (map (fun k => nexp (nmul (nneg k) dt)) mrr))) as [(r & E & Hl & _)|E]; [|congruence].
    rewrite E in E1. injection E1 as <-. rewrite Hl, !map_length. destruct (Nat.eqb_spec (length mean) 1); destruct Hmr; lia.
  - apply bind_ok in E2 as (q & Eq & E2). apply bind_ok in E2 as (r & Er & E2). injection E2 as E2.
    destruct (pmap2_rows ndiv (map nsqr vol) (map (nmul (Fin 2)) mrr)) as [(r0 & E & Hl & _)|E]; [|congruence]. rewrite E in Eq. injection Eq as <-.
    assert (Hr0 : length r0 = V) by (rewrite Hl, !map_length; destruct (Nat.eqb_spec (length vol) 1); destruct Hmr; lia).
    destruct (pmap2_rows nmul r0 (map (fun k => nsub (Fin 1) (nexp (nmul (nmul (Fin (-2)) k) dt))) mrr)) as [(r1 & E' & Hl' & _)|E']; [|congruence].
    rewrite E' in Er. injection Er as <-. cbn [pmap] in E2. injection E2 as <-. rewrite map_length, Hl', map_length. destruct (Nat.eqb_spec (length r0) 1); destruct Hmr; lia.
Qed.
Lemma step_sd_pos : forall k s dt, 0 < k -> 0 < s -> 0 < dt -> 0 < s ^ 2 * (1 - exp (- (2 * k * dt))) / (2 * k).
Proof.
  intros k s dt Hk Hs Hdt. assert (exp (- (2 * k * dt)) < exp 0) by (apply exp_increasing; nra). rewrite exp_0 in *.
  apply Rdiv_lt_0_compat; [apply Rmult_lt_0_compat; [apply pow_lt; auto|lra]|lra].
Qed.
Lemma pget_in : forall l m v, perV l m -> (v < m)%nat -> In (pget l v) l.
Proof. intros l m v H Hv. unfold pget. destruct (Nat.eqb_spec (length l) 1); apply nth_In; destruct H; lia. Qed.
Lemma ou_new_ok : forall mean mrr vol m C, posdef m C -> exists k l, ou_new np_cholesky (DNp1 mean) (DNp1 mrr) (DNp1 vol) (Some (farr m m C)) = Ok (mkObj (mkOU (Row mean) (Row mrr) (Row vol) (Some (farr m m C)) (Some (farr m m l))) k unfitted)
   /\ lower m l /\ (forall i, (i < m)%nat -> 0 < l i i) /\ meq m C (mmul m l (mtr l)) /\ np_cholesky (farr m m C) = Ok (farr m m l).
Proof.
  intros mean mrr vol m C HC. destruct (proj1 (np_cholesky_spec m C (proj1 HC)) HC) as (l & El & H1 & H2 & H3). unfold ou_new, ou_init. cbn [to_row bind]. rewrite El. cbn [bind].
  eexists; exists l. split; [reflexivity|]. auto.
Qed.

Theorem C96_ou_nll : forall infer mvn mean mrr vol C V Q a x n dt o,
  let m := length mean in
  mvn_law mvn -> (0 < m)%nat -> perV mrr m -> length vol = m -> (forall k, In k mrr -> 0 < k) -> (forall s, In s vol -> 0 < s) -> 0 < dt -> posdef m C ->
  meq m V (fun i j => step_sd (pget mrr i) (nth i vol 0) dt * step_sd (pget mrr j) (nth j vol 0) dt * C i j) -> meq m (mmul m V Q) mid -> observed a n m x ->
  ou_new np_cholesky (DNp1 (fins mean)) (DNp1 (fins mrr)) (DNp1 (fins vol)) (Some (farr m m C)) = Ok o ->
  snd (nll infer (ou_nll_np mvn) o (DNp2 a) (Some (Fin dt)))
  = Ok (Fin (mvn_value n m (fun _ => 0) V Q
              (fun t v => x (t + 1)%nat v - (nth v mean 0 + (x t v - nth v mean 0) * exp (- (pget mrr v * dt)))))).
Proof.
  intros infer mvn mean mrr vol C V Q a x n dt o m Hmvn Hm Hmr Hvol Hk Hpos Hdt HC HV HQ (Hr & Hc & Hx) Ho.
  destruct (ou_new_ok (fins mean) (fins mrr) (fins vol) m C HC) as (k & l & E & _). rewrite E in Ho. injection Ho as <-.
  unfold nll. rewrite preprocess_np2 by lia. cbn [snd o_par].
  destruct (ou_terms (fins mean) (fins mrr) (fins vol) (Some (farr m m C)) (Some (farr m m l)) (Fin dt) m)
    as (mt & sc & E1 & E2 & Pm & Ps & Hg); [apply length_fins|apply perV_map; auto|apply perV_map; right; auto|].
  destruct (ou_terms_len _ _ _ _ _ _ m _ _ ltac:(apply length_fins) ltac:(apply perV_map; exact Hmr) ltac:(rewrite length_fins; exact Hvol) E1 E2) as [Lm Ls].
  unfold ou_nll_np. rewrite E1, E2. cbn [bind pflat ou_factor ou_mrr pmap ou_cor]. rewrite Hc, bfits_perV by (apply perV_map, perV_map; auto).
  set (F := fun v => exp (- pget mrr v * dt)).
  erewrite (nll_with_mvn _ n m mt sc _ (fun v => nth v mean 0 * (1 - F v)) (fun v => step_sd (pget mrr v) (nth v vol 0) dt) C (fun t v => x (t + 1)%nat v - F v * x t v) Q V); auto.
  - do 2 f_equal. apply mvn_value_shift. intros t i Ht Hi. unfold F. replace (- pget mrr i * dt) with (- (pget mrr i * dt)) by ring. ring.
  - intros i Hi. destruct (Hg i Hi) as (G1 & _). rewrite <- (bget_nth _ m) by auto. rewrite G1. rewrite !(bget_fins _ m) by (auto; right; reflexivity). rewrite pget_full by auto. reflexivity.
  - intros i Hi. destruct (Hg i Hi) as (_ & G2 & _). assert (Hki : 0 < pget mrr i) by (apply Hk, (pget_in _ m); auto). assert (Hsi : 0 < nth i vol 0) by (apply Hpos, nth_In; lia).
    pose proof (step_sd_pos _ _ _ Hki Hsi Hdt) as HP. split; [|apply sqrt_lt_R0; exact HP].
    rewrite <- (bget_nth _ m) by auto. rewrite G2. rewrite !(bget_fins _ m) by (auto; right; auto). rewrite pget_full by lia. unfold nsqr. cbn [nmul]. rewrite ndiv_fin by lra. cbn [nexp nsub nadd nneg nmul].
    assert (EV : nth i vol 0 * nth i vol 0 / (2 * pget mrr i) * (1 + - exp (-2 * pget mrr i * dt)) = nth i vol 0 ^ 2 * (1 - exp (- (2 * pget mrr i * dt))) / (2 * pget mrr i)).
    { replace (-2 * pget mrr i * dt) with (- (2 * pget mrr i * dt)) by ring. field. lra. }
    rewrite EV. rewrite nsqrt_fin by lra. reflexivity.
  - cbn. lia.
  - intros t j Ht Hj. cbn [at2]. rewrite !Hx by (auto; lia). destruct (Hg j Hj) as (_ & _ & G3).
    rewrite (bget_fins _ m) in G3 by auto. rewrite G3. cbn [nneg nmul nexp nsub nadd]. f_equal. unfold F. rewrite Nat.add_1_r. ring.
Qed.
Print Assumptions C96_ou_nll.

(** The likelihood of a model's own path.  It depends on the noise only through the sum of its squares. *)
Theorem C96_bm_own_path : forall infer mvn d vol C x0 dt z n,
  let m := length d in
  mvn_law mvn -> (0 < m)%nat -> length vol = m -> (forall s, In s vol -> 0 < s) -> 0 < dt -> posdef m C -> x0 <> [] -> Nat.divide (length x0) (m * 1) ->
  exists o a,
    bm_new np_cholesky (DNp1 (fins d)) (DNp1 (fins vol)) (Some (farr m m C)) = Ok o
    /\ bm_path_sample o (fnoise z) (X0Data (DNp1 (fins x0))) (Some (Fin dt)) n 1 None None None true = Ok (ONp a)
    /\ snd (nll infer (bm_nll_np mvn) o (DNp2 a) (Some (Fin dt)))
       = Ok (Fin (sumn n (fun t => sumn m (fun k => draw m 1 z t 0 k ^ 2) / 2)
                  + INR n * (INR m / 2 * ln (2 * PI * dt) + sumn m (fun i => ln (nth i vol 0)) + ln (det m C) / 2))).
Proof.
  intros infer mvn d vol C x0 dt z n m Hmvn Hm Hvol Hpos Hdt HC Hx0 Hdiv.
  destruct (bm_new_ok (fins d) (fins vol) m C HC) as (k & l & E & HL & HP & EC & El).
  destruct (bm_core d vol (Some (farr m m C)) (Some l) x0 dt z n 1) as (a & Ea & K1 & K2 & K3); auto; [right; auto|].
  eexists; exists a. split; [exact E|]. split.
  { unfold bm_path_sample. cbn [o_fit o_par]. rewrite path_sample_plain by auto. cbn [option_map] in Ea. fold m in Ea. rewrite Ea. reflexivity. }
  set (V := fun i j => nth i vol 0 * nth j vol 0 * C i j * dt). set (s := fun i => nth i vol 0 * sqrt dt).
  assert (Hs : forall i, (i < m)%nat -> 0 < s i) by (intros i Hi; apply Rmult_lt_0_compat; [apply Hpos, nth_In; lia|apply sqrt_lt_R0; auto]).
  assert (Vs : meq m (fun i j => s i * s j * C i j) V) by (intros i j _ _; unfold s, V; rewrite <- (sqrt_sqrt dt) at 3 by lra; ring).
  assert (HV : posdef m V) by (apply (posdef_ext m (fun i j => s i * s j * C i j)); [exact Vs|apply posdef_scaled; auto]).
  destruct (inverse_exists m V HV) as (Q & HQ).
  erewrite (C96_bm_nll infer mvn d vol C V Q a (fun t v => bm_real d vol (Some l) x0 dt z 1 t 0 v) n dt); eauto; [|intros i j _ _; reflexivity|].
  2:{ split; [lia|]. split; [rewrite K2; lia|]. intros t v Ht Hv. apply (K3 t 0%nat v); [lia|exact Hv]. }
  set (A := fun i j => s i * l i j).
  assert (AL : lower m A) by (intros i j Hi Hj Hij; unfold A; rewrite HL by auto; ring).
  assert (AP : forall i, (i < m)%nat -> 0 < A i i) by (intros i Hi; apply Rmult_lt_0_compat; auto).
  assert (AE : meq m V (mmul m A (mtr A))).
  { intros i j Hi Hj. rewrite <- Vs by auto. cbv beta. rewrite EC by auto. unfold mmul, mtr, A. rewrite <- S_scal. apply S_ext. intros; ring. }
  do 2 f_equal. rewrite (mvn_value_factor n m _ V Q _ A (fun t k => draw m 1 z t 0 k)); auto.
  - f_equal. f_equal. assert (CG : det m C = prodn m (fun i => l i i) ^ 2) by (rewrite (det_ext m C _ EC); apply det_gram; auto).
    assert (PV : det m V = prodn m (fun i => A i i) ^ 2) by (rewrite (det_ext m V _ AE); apply det_gram; auto).
    rewrite CG, PV, !ln_powr by (apply prodn_pos; auto). rewrite !ln_prodn by auto. unfold A.
    rewrite (S_ext m (fun i => ln (s i * l i i)) (fun i => (ln (nth i vol 0) + ln (l i i)) + ln dt / 2)).
    + rewrite S_plus, S_plus, S_const. rewrite (ln_mult (2 * PI) dt) by (auto; pose proof PI_RGT_0; lra). cbn [INR]. field.
    + intros i Hi. assert (0 < nth i vol 0) by (apply Hpos, nth_In; lia). unfold s. rewrite !ln_mult, ln_sqrt by (auto; try apply sqrt_lt_R0; auto; apply Rmult_lt_0_compat; auto; apply sqrt_lt_R0; auto). ring.
  - intros t i Ht Hi. unfold incr. rewrite Nat.add_1_r. cbn [bm_real]. unfold bm_step. fold m. rewrite pget_full by lia. cbn [shock].
    match goal with |- ?x + (?u + ?w) - ?x = _ => replace (x + (u + w) - x) with (u + w) by ring end. f_equal.
    unfold mv, A, s. fold (sumn m (fun k0 => l i k0 * draw m 1 z t 0 k0)). rewrite <- S_scal. apply S_ext. intros; ring.
Qed.
Print Assumptions C96_bm_own_path.

(** One volatility for all variates: path_sample accepts it, the likelihood raises ValueError. *)
Theorem C96_shared_volatility : forall infer mvn d s C x0 dt z steps P,
  let m := length d in
  (2 <= m)%nat -> posdef m C -> x0 <> [] -> Nat.divide (length x0) (m * P) -> 0 < dt ->
  exists o a,
    bm_new np_cholesky (DNp1 (fins d)) (DNp1 (fins [s])) (Some (farr m m C)) = Ok o
    /\ bm_path_sample o (fnoise z) (X0Data (DNp1 (fins x0))) (Some (Fin dt)) steps P None None None true = Ok (ONp a)
    /\ forall x, (0 < nrow x)%nat -> snd (nll infer (bm_nll_np mvn) o (DNp2 x) (Some (Fin dt))) = Raise ValueError
         /\ snd (nll infer (gbm_nll_np mvn) o (DNp2 x) (Some (Fin dt))) = Raise ValueError.
Proof.
  intros infer mvn d s C x0 dt z steps P m Hm HC Hx0 Hdiv Hdt.
  destruct (bm_new_ok (fins d) (fins [s]) m C HC) as (k & l & E & _ & _ & _ & El).
  destruct (C20_bm_increments np_cholesky d [s] (Some (farr m m C)) (Some l) x0 dt z steps P ltac:(lia) ltac:(left; reflexivity) El Hx0 Hdiv Hdt) as (o & a & Ho & Ha & _).
  exists o, a. split; [exact Ho|]. split; [exact Ha|]. change (bm_new np_cholesky (DNp1 (fins d)) (DNp1 (fins [s])) (Some (farr m m C)) = Ok o) in Ho. rewrite E in Ho. injection Ho as <-.
  intros x Hx. unfold nll. rewrite !preprocess_np2 by auto. cbn [snd o_par]. unfold bm_nll_np, gbm_nll_np, gbm_mean, nll_with. cbn [bm_cor bm_vol bm_drift fins map scale_dt length nrow farr].
  rewrite (proj2 (Nat.eqb_neq 1 m)) by lia. split; [reflexivity|]. rewrite Nat.eqb_refl, !orb_true_r. reflexivity.
Qed.
Print Assumptions C96_shared_volatility.

(** OU fitted to several series: every likelihood raises ValueError. *)
Theorem C96_fitted_ou : forall infer chol mvn o x dt o', mvn_dim mvn -> (2 <= ncol x)%nat ->
  fit infer (ou_fit_np chol) o (DNp2 x) (Some dt) = (o', Ok tt) ->
  forall y dt', (0 < nrow y)%nat -> snd (nll infer (ou_nll_np mvn) o' (DNp2 y) (Some dt')) = Raise ValueError.
Proof.
  intros infer chol mvn o x dt o' Hmvn Hx Hf y dt' Hy. unfold fit in Hf.
  destruct (Nat.eq_dec (nrow x) 0) as [E0|E0].
  { unfold preprocess_fit in Hf. cbn in Hf. rewrite E0 in Hf. cbn in Hf. discriminate. }
  rewrite preprocess_np2 in Hf by lia. unfold ou_fit_np in Hf. destruct (mapM _ _) as [cs|e] eqn:Ecs; [|discriminate].
  destruct (Nat.ltb_spec 1 (ncol x)); [|lia]. cbv zeta in Hf. destruct (chol _) as [l|e] eqn:El; [|discriminate].
  assert (Hcs : length cs = ncol x) by (apply mapM_ok_length in Ecs; rewrite seq_length in Ecs; exact Ecs).
  destruct (rev cs) as [|[[sl ic] rs] cs'] eqn:Er; [discriminate|]. injection Hf as <-.
  unfold nll. rewrite preprocess_np2 by auto. cbn [snd o_par]. unfold ou_nll_np, ou_mean_term, ou_scale, ou_factor. cbn [ou_mean ou_mrr ou_vol ou_cor pmap pmap2 bind pflat bfits length Nat.eqb orb].
  unfold nll_with. cbn [nrow corrcoef ncol]. rewrite !map_length, Hcs, Nat.eqb_refl. apply Hmvn. cbn [length dcd nrow corrcoef ncol]. lia.
Qed.
Print Assumptions C96_fitted_ou.

(* ------------------------------------------------------------------ *)
(** ** The contract of the density is satisfiable *)

(** forward substitution *)
Fixpoint fwd (L : mat) (x : nat -> R) (k : nat) : nat -> R :=
  match k with
  | O => fun _ => 0
  | S j => let y := fwd L x j in fun i => if Nat.eqb i j then (x j - sumn j (fun l => L j l * y l)) / L j j else y i
  end.
Lemma fwd_stable : forall L x k i, (i < k)%nat -> fwd L x k i = fwd L x (S i) i.
Proof.
  intros L x k i. induction k as [|k IH]; intros Hi; [lia|]. destruct (Nat.eq_dec i k) as [->|Hne]; [reflexivity|]. cbn [fwd]. rewrite (proj2 (Nat.eqb_neq i k)) by auto. rewrite IH by lia. reflexivity.
Qed.
Lemma fwd_solves : forall m L x i, lower m L -> (forall i, (i < m)%nat -> 0 < L i i) -> (i < m)%nat -> mv m L (fwd L x m) i = x i.
Proof.
  intros m L x i HL HP Hi. unfold mv. replace m with (S i + (m - S i))%nat at 1 by lia. rewrite SP, S_succ.
  rewrite (S_ext (m - S i) _ (fun _ => 0)) by (intros l Hl; rewrite HL by lia; ring). rewrite S_zero, (fwd_stable L x m i Hi). cbn [fwd]. rewrite Nat.eqb_refl.
  rewrite (S_ext i (fun k => L i k * fwd L x m k) (fun k => L i k * fwd L x i k)) by (intros k Hk; rewrite (fwd_stable L x m k), (fwd_stable L x i k) by lia; reflexivity).
  specialize (HP i Hi). field. lra.
Qed.
(** the density computed from the Cholesky factor of the covariance *)
Definition mvn_ref : mvn_nll := fun mean cov dx =>
  if Nat.eqb (length mean) (nrow cov) then
    let m := nrow cov in
    let A := rchol (fun i j => real_of (at2 cov i j)) m in
    Ok (Fin (sumn (nrow dx) (fun t => sumn m (fun k => fwd A (fun i => real_of (at2 dx t i) - real_of (nth i mean NaN)) m k ^ 2) / 2)
             + INR (nrow dx) * (INR m / 2 * ln (2 * PI) + ln (prodn m (fun i => A i i) ^ 2) / 2)))
  else Raise ValueError.
Example C96_contract_holds : mvn_law mvn_ref /\ mvn_dim mvn_ref.
Proof.
  split.
  - intros n m mu V Q f mean cov dx HV HQ Hm Hmu Hr Hc HC Hn Hd Hf. unfold mvn_ref. rewrite Hm, Hr, Nat.eqb_refl. cbv zeta. rewrite Hn.
    set (A := rchol (fun i j => real_of (at2 cov i j)) m). destruct (cholesky_exists m V HV) as (B & BL & BP & BE).
    destruct (rchol_unique m (fun i j => real_of (at2 cov i j)) B BL BP) with (k := m) as [_ U]; [|lia|].
    { intros i j Hij Hi. rewrite HC by lia. cbn [real_of]. apply BE; lia. }
    assert (AB : meq m A B) by (intros i j Hi Hj; apply U; auto).
    assert (AL : lower m A) by (intros i j Hi Hj Hij; rewrite AB by auto; apply BL; auto).
    assert (AP : forall i, (i < m)%nat -> 0 < A i i) by (intros i Hi; rewrite AB by auto; apply BP; auto).
    assert (AE : meq m V (mmul m A (mtr A))).
    { intros i j Hi Hj. rewrite BE by auto. unfold mmul, mtr. apply S_ext. intros k Hk. rewrite !AB by auto. reflexivity. }
    rewrite (mvn_value_factor n m mu V Q f A (fun t => fwd A (fun i => real_of (at2 dx t i) - real_of (nth i mean NaN)) m)); auto.
    + rewrite (det_ext m V _ AE), det_gram by auto. reflexivity.
    + intros t i Ht Hi. rewrite fwd_solves by auto. rewrite Hf, Hmu by auto. cbn [real_of]. ring.
  - intros mean cov dx H. unfold mvn_ref. rewrite (proj2 (Nat.eqb_neq _ _) H). reflexivity.
Qed.

(** Two variates with correlation 0.6: the hypotheses of C96_bm_own_path hold. *)
Example C96_example : forall infer z, exists o a,
  bm_new np_cholesky (DNp1 (fins [1; 2])) (DNp1 (fins [3; 4])) (Some (farr 2 2 (fun i j => if Nat.eqb i j then 1 else 6/10))) = Ok o
  /\ bm_path_sample o (fnoise z) (X0Data (DNp1 (fins [0]))) (Some (Fin (1/4))) 5 1 None None None true = Ok (ONp a)
  /\ exists r, snd (nll infer (bm_nll_np mvn_ref) o (DNp2 a) (Some (Fin (1/4)))) = Ok (Fin r).
Proof.
  intros infer z. destruct (C96_bm_own_path infer mvn_ref [1; 2] [3; 4] (fun i j => if Nat.eqb i j then 1 else 6/10) [0] (1/4) z 5) as (o & a & H1 & H2 & H3).
  - apply C96_contract_holds.
  - cbn. lia.
  - reflexivity.
  - intros s [<-|[<-|[]]]; lra.
  - lra.
  - split; [intros i j _ _; unfold mtr; rewrite (Nat.eqb_sym j i); reflexivity|]. intros x (i & Hi & Hx). unfold quad. cbn [length]. rewrite !S_succ, !S_0. cbn [Nat.eqb length] in *.
    set (u := x 0%nat) in *. set (w := x 1%nat) in *. assert (N : u <> 0 \/ w <> 0) by (destruct i as [|[|i]]; [left|right|lia]; exact Hx). clearbody u w.
    assert (0 < u * u \/ 0 < w * w) by (destruct N; [left|right]; nra). pose proof (Rle_0_sqr (u + w)). unfold Rsqr in *. nra.
  - discriminate.
  - exists 2%nat. reflexivity.
  - exists o, a. split; [exact H1|]. split; [exact H2|]. eexists. exact H3.
Qed.
(** A fit of two series that succeeds (any data of finite numbers, any factorisation that returns). *)
Example C96_fitted_example : forall infer o x, exists o', fit infer (ou_fit_np (fun c => Ok c)) o (DNp2 (farr 4 2 x)) (Some (Fin 1)) = (o', Ok tt).
Proof.
  intros infer o x. unfold fit. rewrite preprocess_np2 by (cbn; lia). unfold ou_fit_np.
  assert (C : forall i, exists r, ou_fit_col (farr 4 2 x) i = Ok r).
  { intros i. unfold ou_fit_col. assert (L : exists q, lstsq_line (removelast (col (farr 4 2 x) i)) (tl (col (farr 4 2 x) i)) = Ok q).
    { unfold lstsq_line. cbn [col farr nrow at2 seq map removelast tl forallb is_fin andb]. destruct (reqb _ _); eexists; reflexivity. }
    destruct L as (q & ->). cbn [bind]. eexists. reflexivity. }
  destruct (C 0%nat) as (r0 & E0). destruct (C 1%nat) as ([[s1 i1] e1] & E1). cbn [ncol farr seq mapM]. rewrite E0, E1. cbn [bind rev app Nat.ltb Nat.leb]. eexists. reflexivity.
Qed.
