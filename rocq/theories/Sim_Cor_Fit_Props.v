(** Property C98: fitting BM and GBM to several series. *)
From Coq Require Import Reals Lra String ZArith List Arith Bool Lia FunctionalExtensionality Classical_Prop Classical_Pred_Type.
From Verif Require Import Base Num Sums Lin Sim_Model Sim_Spec Sim_Proofs Sim_Fit_Proofs Sim_Fit_Props Chol_Model Chol_Proofs Feat_Proofs Sim_Props Sim_Cor_Spec Sim_Cor_Props Sim_Cor_Nll_Props.
Import ListNotations.
Open Scope R_scope.

(** ** The factorisation reads the lower triangle only *)
Lemma chol_cols_ext : forall n a b k, (k <= n)%nat -> (forall i j, (j <= i)%nat -> (i < n)%nat -> a i j = b i j) ->
  match chol_cols a k, chol_cols b k with
  | Ok L, Ok L' => forall i l, (i < n)%nat -> L i l = L' i l
  | Raise e, Raise e' => e = e'
  | _, _ => False
  end.
Proof.
  intros n a b k Hk H. induction k as [|k IH]; [cbn [chol_cols]; auto|]. cbn [chol_cols]. specialize (IH ltac:(lia)).
  destruct (chol_cols a k) as [L|e], (chol_cols b k) as [L'|e']; cbn [bind]; try contradiction; [|exact IH]. cbv zeta.
  assert (D : forall i, (i < n)%nat -> nsum (map (fun l => nmul (L i l) (L k l)) (seq 0 k)) = nsum (map (fun l => nmul (L' i l) (L' k l)) (seq 0 k))).
  { intros i Hi. f_equal. apply map_ext. intros l. rewrite !IH by lia. reflexivity. }
  rewrite (D k) by lia. rewrite (H k k) by lia. destruct (ngtb _ _); [|reflexivity]. intros i l Hi. destruct (Nat.eqb l k); [|apply IH; auto].
  destruct (Nat.ltb_spec i k); [reflexivity|]. destruct (Nat.eqb i k); [reflexivity|]. rewrite (D i), (H i k) by lia. reflexivity.
Qed.
Lemma np_cholesky_ext : forall a b n, nrow a = n -> ncol a = n -> nrow b = n -> ncol b = n -> (forall i j, (j <= i)%nat -> (i < n)%nat -> at2 a i j = at2 b i j) -> np_cholesky a = np_cholesky b.
Proof.
  intros a b n H1 H2 H3 H4 H. unfold np_cholesky. rewrite H1, H2, H3, H4, Nat.eqb_refl. pose proof (chol_cols_ext n (at2 a) (at2 b) n (le_n n) H) as E.
  destruct (chol_cols (at2 a) n) as [L|e], (chol_cols (at2 b) n) as [L'|e']; cbn [bind]; try contradiction; [|congruence].
  do 2 f_equal. extensionality i. extensionality j. destruct (Nat.ltb_spec i n); [apply E; auto|reflexivity].
Qed.

(** ** Sample correlations *)
Lemma combine_map : forall A B C (f : A -> B) (g : A -> C) l, combine (map f l) (map g l) = map (fun t => (f t, g t)) l.
Proof. induction l as [|a l IH]; [reflexivity|]. cbn [map combine]. rewrite IH. reflexivity. Qed.
Lemma s_mean_rmean : forall n f v, s_mean n f v = rmean (map (fun t => f t v) (seq 0 n)).
Proof. intros. unfold s_mean, rmean. rewrite map_length, seq_length. reflexivity. Qed.
Lemma ncov_seq : forall n f i j, (2 <= n)%nat -> ncov (fins (map (fun t => f t i) (seq 0 n))) (fins (map (fun t => f t j) (seq 0 n))) = Fin (s_cov n f i j).
Proof.
  intros n f i j Hn. assert (N : forall v, map (fun t : nat => f t v) (seq 0 n) <> []) by (intros v; destruct n; [lia|discriminate]). unfold ncov, fins.
  rewrite !nmean_fin by apply N. rewrite !map_map, combine_map, map_map. cbn [fst snd]. rewrite <- !s_mean_rmean.
  rewrite (map_ext _ (fun t => Fin ((f t i - s_mean n f i) * (f t j - s_mean n f j)))) by (intros; rewrite !nsub_fin; reflexivity).
  rewrite <- (map_map (fun t => (f t i - s_mean n f i) * (f t j - s_mean n f j)) Fin), nsum_fin, map_length, seq_length. unfold nofnat. rewrite ndiv_fin; [reflexivity|]. apply not_0_INR. lia.
Qed.
Lemma s_cov_var : forall n f v, s_cov n f v v = rvar 1 (map (fun t => f t v) (seq 0 n)).
Proof. intros n f v. unfold s_cov, rvar. rewrite map_length, seq_length, map_map, s_mean_rmean. reflexivity. Qed.
Lemma s_cov_pos : forall n f v, (2 <= n)%nat -> (moves n f v -> 0 < s_cov n f v v) /\ (~ moves n f v -> s_cov n f v v = 0).
Proof.
  intros n f v Hn. rewrite s_cov_var. assert (L : (2 <= length (map (fun t : nat => f t v) (seq 0 n)))%nat) by (rewrite map_length, seq_length; auto).
  pose proof (rvar_zero_iff _ L) as Z. assert (P : 0 <= rvar 1 (map (fun t => f t v) (seq 0 n))) by (apply rvar_nonneg; rewrite map_length, seq_length; lia). split.
  - intros (t & t' & Ht & Ht' & Hne). destruct P as [P|P]; [exact P|]. exfalso. apply Hne. apply (proj1 Z (eq_sym P)); apply in_map_iff; eexists; (split; [reflexivity|]); apply in_seq; lia.
  - intros N. apply Z. intros x y Hx Hy. apply in_map_iff in Hx as (t & <- & Ht). apply in_map_iff in Hy as (t' & <- & Ht'). apply in_seq in Ht, Ht'.
    apply NNPP. intros Hne. apply N. exists t, t'. repeat split; auto; lia.
Qed.
Lemma corrcoef_get : forall dx n m f i j, nrow dx = n -> ncol dx = m -> (2 <= n)%nat -> (forall t v, (t < n)%nat -> (v < m)%nat -> at2 dx t v = Fin (f t v)) ->
  (i < m)%nat -> (j < m)%nat -> moves n f i -> moves n f j -> at2 (corrcoef dx) i j = Fin (s_cor n f i j).
Proof.
  intros dx n m f i j Hr Hc Hn Hf Hi Hj Mi Mj. unfold corrcoef. cbn [at2].
  assert (Hcol : forall v, (v < m)%nat -> col dx v = fins (map (fun t => f t v) (seq 0 n))).
  { intros v Hv. unfold col, fins. rewrite map_map, Hr. apply map_ext_in. intros t Ht. apply in_seq in Ht. apply Hf; auto; lia. }
  rewrite !Hcol, !ncov_seq by auto. pose proof (proj1 (s_cov_pos n f i Hn) Mi) as Pi. pose proof (proj1 (s_cov_pos n f j Hn) Mj) as Pj.
  pose proof (sqrt_lt_R0 _ Pi). pose proof (sqrt_lt_R0 _ Pj).
  rewrite !nsqrt_fin by lra. rewrite !ndiv_fin by lra. f_equal. unfold s_cor. field. split; lra.
Qed.
Lemma s_mean_comb : forall n m f w, (0 < n)%nat -> sumn m (fun i => w i * s_mean n f i) = sumn n (fun t => sumn m (fun i => w i * f t i)) / INR n.
Proof.
  intros n m f w Hn. unfold s_mean, Rdiv. rewrite <- S_scal_r.
  rewrite (S_ext m _ (fun i => sumn n (fun t => w i * f t i * / INR n))) by (intros i Hi; rewrite S_scal_r, S_scal; ring).
  rewrite S_swap. apply S_ext. intros t Ht. rewrite S_scal_r. reflexivity.
Qed.
Lemma quad_s_cor : forall n m f x, (2 <= n)%nat -> (forall v, (v < m)%nat -> moves n f v) ->
  quad m (s_cor n f) x = sumn n (fun t => sumn m (fun i => x i / sqrt (s_cov n f i i) * (f t i - s_mean n f i)) ^ 2) / INR (n - 1).
Proof.
  intros n m f x Hn Hm. unfold quad.
  assert (P : forall v, (v < m)%nat -> 0 < sqrt (s_cov n f v v)) by (intros v Hv; apply sqrt_lt_R0, s_cov_pos; auto).
  assert (PN : INR (n - 1) <> 0) by (apply not_0_INR; lia). set (s := fun v => sqrt (s_cov n f v v)).
  rewrite (S_ext n _ (fun t => sumn m (fun i => sumn m (fun j => (x i / s i * (f t i - s_mean n f i)) * (x j / s j * (f t j - s_mean n f j)))))).
  2:{ intros t Ht. cbn [pow]. rewrite Rmult_1_r. rewrite <- S_scal_r. apply S_ext. intros i Hi. rewrite <- S_scal. reflexivity. }
  transitivity (sumn m (fun i => sumn m (fun j => x i / s i * (x j / s j) * sumn n (fun t => (f t i - s_mean n f i) * (f t j - s_mean n f j)) / INR (n - 1)))).
  - apply S_ext. intros i Hi. apply S_ext. intros j Hj. unfold s_cor, s_cov at 1. fold (s i) (s j). pose proof (P i Hi). pose proof (P j Hj). fold (s i) in *. fold (s j) in *. field. repeat split; auto; lra.
  - symmetry. rewrite S_swap. unfold Rdiv at 1. rewrite <- S_scal_r. apply S_ext. intros i Hi. rewrite S_swap, <- S_scal_r. apply S_ext. intros j Hj.
    rewrite (S_ext n (fun t => _ * _ * (_ * _)) (fun t => (x i / s i * (x j / s j)) * ((f t i - s_mean n f i) * (f t j - s_mean n f j)))) by (intros; ring).
    rewrite S_scal. reflexivity.
Qed.
Lemma posdef_s_cor : forall n m f, (2 <= n)%nat -> (forall v, (v < m)%nat -> moves n f v) -> (posdef m (s_cor n f) <-> independent n m f).
Proof.
  intros n m f Hn Hm. assert (P : forall v, (v < m)%nat -> 0 < sqrt (s_cov n f v v)) by (intros v Hv; apply sqrt_lt_R0, s_cov_pos; auto).
  assert (PN : 0 < INR (n - 1)) by (apply lt_0_INR; lia). assert (PN' : 0 < INR n) by (apply lt_0_INR; lia).
  assert (SY : symmetric m (s_cor n f)).
  { intros i j _ _. unfold mtr, s_cor. rewrite (Rmult_comm (sqrt (s_cov n f j j))). f_equal. unfold s_cov. f_equal. apply S_ext. intros; ring. }
  assert (CE : forall w t, sumn m (fun i => w i * (f t i - s_mean n f i)) = sumn m (fun i => w i * f t i) - sumn n (fun t => sumn m (fun i => w i * f t i)) / INR n).
  { intros w t. rewrite <- s_mean_comb by lia. rewrite <- S_minus. apply S_ext. intros; ring. }
  split.
  - intros [_ HP] w (i & Hi & Hw). apply NNPP. intros N.
    assert (K : forall t t', (t < n)%nat -> (t' < n)%nat -> sumn m (fun i => w i * f t i) = sumn m (fun i => w i * f t' i)) by (intros t t' Ht Ht'; apply NNPP; intros Hne; apply N; exists t, t'; auto).
    specialize (HP (fun i => w i * sqrt (s_cov n f i i))). rewrite quad_s_cor in HP by auto.
    rewrite (S_ext n _ (fun _ => 0)) in HP.
    + rewrite S_zero in HP. unfold Rdiv in HP. rewrite Rmult_0_l in HP. apply (Rlt_irrefl 0), HP. exists i. split; [auto|]. specialize (P i Hi). intros E. apply Rmult_integral in E. destruct E; lra.
    + intros t Ht. rewrite (S_ext m _ (fun i => w i * (f t i - s_mean n f i))) by (intros v Hv; specialize (P v Hv); field; lra). rewrite CE.
      rewrite (S_ext n _ (fun _ => sumn m (fun i => w i * f t i))) by (intros u Hu; apply K; auto). rewrite S_const. replace (sumn m (fun i => w i * f t i) - INR n * sumn m (fun i => w i * f t i) / INR n) with 0 by (field; lra). ring.
  - intros HI. split; [exact SY|]. intros x (i & Hi & Hx). rewrite quad_s_cor by auto. apply Rdiv_lt_0_compat; [|exact PN].
    destruct (HI (fun i => x i / sqrt (s_cov n f i i))) as (t & t' & Ht & Ht' & Hne).
    { exists i. split; [auto|]. specialize (P i Hi). intros E. apply Hx. unfold Rdiv in E. apply Rmult_integral in E. destruct E as [E|E]; [exact E|]. apply Rinv_neq_0_compat in E; [contradiction|lra]. }
    set (g := fun t => sumn m (fun i => x i / sqrt (s_cov n f i i) * (f t i - s_mean n f i))).
    assert (G : g t <> g t') by (unfold g; rewrite !CE; lra).
    assert (GE : forall u, (u < n)%nat -> g u ^ 2 <= sumn n (fun t => g t ^ 2)) by (intros u Hu; apply (S_ge_term n (fun t => g t ^ 2) u Hu); intros; apply pow2_ge_0).
    pose proof (GE t Ht). pose proof (GE t' Ht'). fold g. change (0 < sumn n (fun t => g t ^ 2)). assert (g t <> 0 \/ g t' <> 0) as [Z|Z] by (destruct (Req_dec (g t) 0); [right|left]; lra).
    + assert (0 < g t ^ 2) by (rewrite <- Rsqr_pow2; apply Rsqr_pos_lt; auto). lra.
    + assert (0 < g t' ^ 2) by (rewrite <- Rsqr_pow2; apply Rsqr_pos_lt; auto). lra.
Qed.

(** ** Too few observations: homogeneous systems have solutions *)
Lemma S_skip : forall n g p, (p <= n)%nat -> sumn (S n) g = g p + sumn n (fun i => g (skip p i)).
Proof.
  intros n g p Hp. replace (S n) with (p + S (n - p))%nat by lia. replace n with (p + (n - p))%nat at 2 by lia. rewrite !SP, S_head.
  rewrite (S_ext p (fun i => g (skip p i)) g) by (intros i Hi; unfold skip; destruct (Nat.ltb_spec i p); [reflexivity|lia]).
  rewrite (S_ext (n - p) (fun l => g (skip p (p + l))) (fun l => g (p + S l)%nat)) by (intros i Hi; unfold skip; destruct (Nat.ltb_spec (p + i) p); [lia|]; f_equal; lia).
  rewrite Nat.add_0_r. ring.
Qed.
Lemma homogeneous : forall k m (A : mat), (k < m)%nat -> exists w, nonzero m w /\ forall r, (r < k)%nat -> sumn m (fun i => A r i * w i) = 0.
Proof.
  induction k as [|k IH]; intros m A Hk.
  - exists (fun _ => 1). split; [exists 0%nat; split; [lia|lra]|intros; lia].
  - destruct m as [|m]; [lia|]. destruct (classic (forall i, (i < S m)%nat -> A k i = 0)) as [Z|N].
    + destruct (IH (S m) A ltac:(lia)) as (w & Hw & E). exists w. split; [auto|]. intros r Hr. destruct (Nat.eq_dec r k) as [->|Hne]; [|apply E; lia].
      rewrite (S_ext (S m) _ (fun _ => 0)); [apply S_zero|]. intros i Hi. rewrite Z by auto. ring.
    + apply not_all_ex_not in N as (p & N). apply imply_to_and in N as (Hp & N).
      destruct (IH m (fun r i => A r (skip p i) - A r p * A k (skip p i) / A k p) ltac:(lia)) as (w & (i0 & Hi0 & Hw) & E).
      set (h := - sumn m (fun i => A k (skip p i) * w i) / A k p).
      set (W := fun i => if Nat.eqb i p then h else if Nat.ltb i p then w i else w (i - 1)%nat).
      assert (Wp : W p = h) by (unfold W; rewrite Nat.eqb_refl; reflexivity).
      assert (Ws : forall i, W (skip p i) = w i).
      { intros i. unfold W, skip. destruct (Nat.ltb_spec i p).
        - destruct (Nat.eqb_spec i p); [lia|]. destruct (Nat.ltb_spec i p); [reflexivity|lia].
        - destruct (Nat.eqb_spec (S i) p); [lia|]. destruct (Nat.ltb_spec (S i) p); [lia|]. f_equal. lia. }
      assert (Row : forall r, sumn (S m) (fun i => A r i * W i) = A r p * h + sumn m (fun i => A r (skip p i) * w i)).
      { intros r. rewrite (S_skip m _ p) by lia. rewrite Wp. f_equal. apply S_ext. intros i Hi. rewrite Ws. reflexivity. }
      exists W. split.
      * exists (skip p i0). split; [apply skip_lt; auto|]. rewrite Ws. exact Hw.
      * intros r Hr. rewrite Row. destruct (Nat.eq_dec r k) as [->|Hne].
        -- unfold h. field. exact N.
        -- specialize (E r ltac:(lia)). rewrite (S_ext m _ (fun i => A r (skip p i) * w i - A r p / A k p * (A k (skip p i) * w i))) in E by (intros; field; auto).
           rewrite S_minus, S_scal in E. unfold h. set (q := sumn m (fun i => A k (skip p i) * w i)) in *. replace (A r p * (- q / A k p)) with (- (A r p / A k p * q)) by (field; exact N). lra.
Qed.
Lemma too_few : forall n m f, (n <= m)%nat -> (0 < m)%nat -> ~ independent n m f.
Proof.
  intros n m f Hnm Hm HI. destruct n as [|n].
  - destruct (HI (fun _ => 1)) as (t & _ & Ht & _); [exists 0%nat; split; [auto|lra]|lia].
  - destruct (homogeneous n m (fun r i => f r i - f n i) ltac:(lia)) as (w & Hw & E). destruct (HI w Hw) as (t & t' & Ht & Ht' & Hne). apply Hne.
    assert (G : forall r, (r < S n)%nat -> sumn m (fun i => w i * f r i) = sumn m (fun i => w i * f n i)).
    { intros r Hr. destruct (Nat.eq_dec r n) as [->|Hrn]; [reflexivity|]. specialize (E r ltac:(lia)). rewrite (S_ext m _ (fun i => w i * f r i - w i * f n i)) in E by (intros; ring).
      rewrite S_minus in E. lra. }
    rewrite (G t Ht), (G t' Ht'). reflexivity.
Qed.

(** ** The fit *)
Lemma fit_changes_cor : forall p dx n m f dt, nrow dx = n -> ncol dx = m -> (2 <= n)%nat -> (2 <= m)%nat -> 0 < dt ->
  (forall t v, (t < n)%nat -> (v < m)%nat -> at2 dx t v = Fin (f t v)) ->
  ((exists v, (v < m)%nat /\ ~ moves n f v) -> snd (fit_changes np_cholesky p dx (Fin dt)) = Raise ValueError)
  /\ ((forall v, (v < m)%nat -> moves n f v) -> independent n m f -> exists c, snd (fit_changes np_cholesky p dx (Fin dt)) = Ok tt /\ bm_cor (fst (fit_changes np_cholesky p dx (Fin dt))) = Some c
        /\ nrow c = m /\ ncol c = m /\ (forall i j, (i < m)%nat -> (j < m)%nat -> at2 c i j = Fin (s_cor n f i j))
        /\ exists l, bm_L (fst (fit_changes np_cholesky p dx (Fin dt))) = Some (farr m m l) /\ meq m (s_cor n f) (mmul m l (mtr l)))
  /\ ((forall v, (v < m)%nat -> moves n f v) -> ~ independent n m f -> snd (fit_changes np_cholesky p dx (Fin dt)) = Raise LinAlgError).
Proof.
  intros p dx n m f dt Hr Hc Hn Hm Hdt Hf. destruct (fit_changes_spec np_cholesky p dx dt f Hdt ltac:(lia)) as (_ & F2 & _); [intros; apply Hf; lia|].
  assert (Hs : 0 < sqrt dt) by (apply sqrt_lt_R0; auto).
  assert (HW : map (fun c => ndiv (nstd 1 c) (nsqrt (Fin dt))) (map (col dx) (seq 0 (ncol dx))) = fins (map (fun v => sqrt (s_cov n f v v) / sqrt dt) (seq 0 m))).
  { transitivity (bm_vol (fst (fit_changes np_cholesky p dx (Fin dt)))).
    - unfold fit_changes. destruct (Nat.ltb 1 (ncol dx)); [|reflexivity]. destruct (existsb _ _); [reflexivity|]. destruct (np_cholesky _); reflexivity.
    - rewrite F2, Hr, Hc. f_equal. apply map_ext. intros v. rewrite s_cov_var. reflexivity. }
  assert (EX : forall b, existsb (fun v => neqb v (Fin 0)) (fins (map (fun v => sqrt (s_cov n f v v) / sqrt dt) (seq 0 m))) = b <-> (b = true <-> exists v, (v < m)%nat /\ ~ moves n f v)).
  { assert (T : existsb (fun v => neqb v (Fin 0)) (fins (map (fun v => sqrt (s_cov n f v v) / sqrt dt) (seq 0 m))) = true <-> exists v, (v < m)%nat /\ ~ moves n f v).
    { rewrite existsb_exists. split.
      - intros (y & Hy & E). unfold fins in Hy. rewrite map_map in Hy. apply in_map_iff in Hy as (v & <- & Hv). apply in_seq in Hv. exists v. split; [lia|]. intros M.
        pose proof (sqrt_lt_R0 _ (proj1 (s_cov_pos n f v Hn) M)). cbn in E. apply reqb_true in E. assert (0 < sqrt (s_cov n f v v) / sqrt dt) by (apply Rdiv_lt_0_compat; auto). lra.
      - intros (v & Hv & M). exists (Fin (sqrt (s_cov n f v v) / sqrt dt)). split.
        + unfold fins. rewrite map_map. apply in_map_iff. exists v. split; [reflexivity|]. apply in_seq. lia.
        + cbn. apply reqb_true. rewrite (proj2 (s_cov_pos n f v Hn) M), sqrt_0. unfold Rdiv. ring. }
    intros b. split; [intros <-; exact T|]. intros E. destruct (existsb _ _), b; auto; [|]; intuition congruence. }
  unfold fit_changes. rewrite HW, Hc. destruct (Nat.ltb_spec 1 m) as [_|]; [|lia]. split; [|split].
  - intros V. rewrite (proj2 (EX true)) by tauto. reflexivity.
  - intros M HI. rewrite (proj2 (EX false)) by (split; [discriminate|intros (v & Hv & N); destruct (N (M v Hv))]).
    assert (HC : posdef m (s_cor n f)) by (apply posdef_s_cor; auto). destruct (proj1 (np_cholesky_spec m _ (proj1 HC)) HC) as (l & El & _ & _ & EC).
    rewrite (np_cholesky_ext (corrcoef dx) (farr m m (s_cor n f)) m), El by (try reflexivity; try (cbn; auto; fail); intros i j Hij Hi; rewrite (corrcoef_get dx n m f) by (auto; try lia; apply M; lia); reflexivity).
    eexists. split; [reflexivity|]. split; [reflexivity|]. split; [cbn; auto|]. split; [cbn; auto|]. split; [|exists l; split; [reflexivity|exact EC]].
    intros i j Hi Hj. apply (corrcoef_get dx n m f); auto.
  - intros M HI. rewrite (proj2 (EX false)) by (split; [discriminate|intros (v & Hv & N); destruct (N (M v Hv))]).
    assert (HC : ~ posdef m (s_cor n f)) by (intros X; apply HI; apply posdef_s_cor; auto).
    assert (SY : symmetric m (s_cor n f)).
    { intros i j _ _. unfold mtr, s_cor. rewrite (Rmult_comm (sqrt (s_cov n f j j))). f_equal. unfold s_cov. f_equal. apply S_ext. intros; ring. }
    rewrite (np_cholesky_ext (corrcoef dx) (farr m m (s_cor n f)) m), (proj2 (np_cholesky_spec m _ SY) HC) by (try reflexivity; try (cbn; auto; fail); intros i j Hij Hi; rewrite (corrcoef_get dx n m f) by (auto; try lia; apply M; lia); reflexivity).
    reflexivity.
Qed.
Lemma logret_get : forall a n m x t v, observed a n m x -> (forall t v, (t <= n)%nat -> (v < m)%nat -> 0 < x t v) -> (t < n)%nat -> (v < m)%nat ->
  at2 (logret a) t v = Fin (incr (fun t v => ln (x t v)) t v).
Proof.
  intros a n m x t v (Hr & Hc & Hx) Hp Ht Hv. unfold logret. cbn [at2]. rewrite !Hx by (auto; lia). assert (0 < x t v) by (apply Hp; auto; lia). assert (0 < x (S t) v) by (apply Hp; auto; lia).
  rewrite ndiv_fin by lra. rewrite nlog_fin by (apply Rdiv_lt_0_compat; auto). unfold Rdiv, incr. rewrite ln_mult, ln_Rinv by (auto; apply Rinv_0_lt_compat; auto). rewrite Nat.add_1_r. reflexivity.
Qed.

(* ------------------------------------------------------------------ *)
(** ** C98 *)

(** BM fitted to m >= 2 series of n increments: which outcome, and the correlation found. *)
Theorem C98_bm_fit : forall infer (o : obj bmpar) a x n m dt, (2 <= n)%nat -> (2 <= m)%nat -> 0 < dt -> observed a n m x ->
  let (fitted, outcome) := fit infer (bm_fit_np np_cholesky) o (DNp2 a) (Some (Fin dt)) in
  ((exists v, (v < m)%nat /\ ~ moves n (incr x) v) -> outcome = Raise ValueError)
  /\ ((forall v, (v < m)%nat -> moves n (incr x) v) -> ~ independent n m (incr x) -> outcome = Raise LinAlgError)
  /\ (independent n m (incr x) -> outcome = Ok tt
      /\ exists c, bm_cor (o_par fitted) = Some c /\ nrow c = m /\ ncol c = m
           /\ (forall i j, (i < m)%nat -> (j < m)%nat -> at2 c i j = Fin (s_cor n (incr x) i j)) /\ posdef m (s_cor n (incr x))
           /\ exists l, bm_L (o_par fitted) = Some (farr m m l) /\ meq m (s_cor n (incr x)) (mmul m l (mtr l))).
Proof.
  intros infer o a x n m dt Hn Hm Hdt (Hr & Hc & Hx). unfold fit. rewrite preprocess_np2 by lia. unfold bm_fit_np.
  destruct (fit_changes_cor (o_par o) (diff0 a) n m (incr x) dt) as (F1 & F2 & F3); auto.
  { cbn. lia. }
  { intros t v Ht Hv. cbn [diff0 at2]. rewrite !Hx by (auto; lia). unfold incr. rewrite Nat.add_1_r. reflexivity. }
  destruct (fit_changes np_cholesky (o_par o) (diff0 a) (Fin dt)) as [p r]. cbn [fst snd o_par] in *. split; [exact F1|]. split; [exact F3|]. intros HI.
  assert (M : forall v, (v < m)%nat -> moves n (incr x) v).
  { intros v Hv. destruct (HI (fun i => if Nat.eqb i v then 1 else 0)) as (t & t' & Ht & Ht' & Hne); [exists v; split; [auto|rewrite Nat.eqb_refl; lra]|]. exists t, t'. split; [auto|]. split; [auto|].
    intros E. apply Hne. assert (G : forall u, sumn m (fun i => (if Nat.eqb i v then 1 else 0) * incr x u i) = incr x u v).
    { intros u. rewrite (S_single m _ v Hv); [rewrite Nat.eqb_refl; ring|]. intros i _ Hi. rewrite (proj2 (Nat.eqb_neq i v)) by auto. ring. }
    rewrite !G. exact E. }
  destruct (F2 M HI) as (c & E1 & E2 & E3 & E4 & E5 & E6). split; [exact E1|]. exists c. repeat split; auto.
  - apply posdef_s_cor; auto.
  - apply posdef_s_cor; auto.
Qed.
Print Assumptions C98_bm_fit.

(** GBM: the same with log returns of positive data. *)
Theorem C98_gbm_fit : forall infer (o : obj bmpar) a x n m dt, (2 <= n)%nat -> (2 <= m)%nat -> 0 < dt -> observed a n m x ->
  (forall t v, (t <= n)%nat -> (v < m)%nat -> 0 < x t v) ->
  let lx := fun t v => ln (x t v) in
  let (fitted, outcome) := fit infer (gbm_fit_np np_cholesky) o (DNp2 a) (Some (Fin dt)) in
  ((exists v, (v < m)%nat /\ ~ moves n (incr lx) v) -> outcome = Raise ValueError)
  /\ ((forall v, (v < m)%nat -> moves n (incr lx) v) -> ~ independent n m (incr lx) -> outcome = Raise LinAlgError)
  /\ (independent n m (incr lx) -> (forall v, (v < m)%nat -> moves n (incr lx) v) -> outcome = Ok tt
      /\ exists c, bm_cor (o_par fitted) = Some c /\ nrow c = m /\ ncol c = m
           /\ (forall i j, (i < m)%nat -> (j < m)%nat -> at2 c i j = Fin (s_cor n (incr lx) i j))).
Proof.
  intros infer o a x n m dt Hn Hm Hdt HO Hp lx. destruct HO as (Hr & Hc & Hx). unfold fit. rewrite preprocess_np2 by lia. unfold gbm_fit_np.
  destruct (fit_changes_cor (o_par o) (logret a) n m (incr lx) dt) as (F1 & F2 & F3); auto.
  { cbn. lia. }
  { intros t v Ht Hv. apply (logret_get a n m x); auto. repeat split; auto. }
  destruct (fit_changes np_cholesky (o_par o) (logret a) (Fin dt)) as [p r]. cbn [fst snd o_par] in *. split; [exact F1|]. split; [exact F3|]. intros HI M.
  destruct (F2 M HI) as (c & E1 & E2 & E3 & E4 & E5 & E6). split; [exact E1|]. exists c. repeat split; auto.
Qed.
Print Assumptions C98_gbm_fit.

(** At most as many increments as series: the fit of BM never succeeds. *)
Theorem C98_too_few_rows : forall infer (o : obj bmpar) a x n m dt, (2 <= n)%nat -> (n <= m)%nat -> 0 < dt -> observed a n m x ->
  snd (fit infer (bm_fit_np np_cholesky) o (DNp2 a) (Some (Fin dt))) = Raise ValueError \/ snd (fit infer (bm_fit_np np_cholesky) o (DNp2 a) (Some (Fin dt))) = Raise LinAlgError.
Proof.
  intros infer o a x n m dt Hn Hnm Hdt HO. pose proof (C98_bm_fit infer o a x n m dt Hn ltac:(lia) Hdt HO) as F.
  destruct (fit infer (bm_fit_np np_cholesky) o (DNp2 a) (Some (Fin dt))) as [fitted outcome]. cbn [snd]. destruct F as (F1 & F2 & _).
  destruct (classic (exists v, (v < m)%nat /\ ~ moves n (incr x) v)) as [V|V]; [left; auto|right]. apply F2; [|apply too_few; lia].
  intros v Hv. apply NNPP. intros N. apply V. exists v. auto.
Qed.
Print Assumptions C98_too_few_rows.

(** Fit, then simulate with the same step: with noise of zero cross moments and unit second moments the simulated increments have
    the means and covariances of the data. *)
Theorem C98_fit_then_simulate : forall infer (o : obj bmpar) a x n m dt x0 z steps P, (2 <= n)%nat -> (2 <= m)%nat -> 0 < dt -> observed a n m x ->
  independent n m (incr x) -> x0 <> [] -> Nat.divide (length x0) (m * P) -> white m steps P z ->
  exists fitted out, fit infer (bm_fit_np np_cholesky) o (DNp2 a) (Some (Fin dt)) = (fitted, Ok tt)
    /\ bm_path_sample fitted (fnoise z) (X0Data (DNp1 (fins x0))) (Some (Fin dt)) steps P None None None true = Ok (ONp out)
    /\ forall i j, (i < m)%nat -> (j < m)%nat ->
       let dx v t p := val (at2 out (t + 1) (p * m + v)) - val (at2 out t (p * m + v)) - s_mean n (incr x) v in
       sum_tp steps P (fun t p => dx i t p * dx j t p) = INR (steps * P) * s_cov n (incr x) i j.
Proof.
  intros infer o a x n m dt x0 z steps P Hn Hm Hdt HO HI Hx0 Hdiv HW. pose proof (C98_bm_fit infer o a x n m dt Hn Hm Hdt HO) as F.
  assert (M : forall v, (v < m)%nat -> 0 < s_cov n (incr x) v v).
  { intros v Hv. apply (proj1 (s_cov_pos n (incr x) v Hn)). destruct (HI (fun i => if Nat.eqb i v then 1 else 0)) as (t & t' & Ht & Ht' & Hne); [exists v; split; [auto|rewrite Nat.eqb_refl; lra]|]. exists t, t'. split; [auto|]. split; [auto|].
    intros E. apply Hne. assert (G : forall u, sumn m (fun i => (if Nat.eqb i v then 1 else 0) * incr x u i) = incr x u v).
    { intros u. rewrite (S_single m _ v Hv); [rewrite Nat.eqb_refl; ring|]. intros i _ Hi. rewrite (proj2 (Nat.eqb_neq i v)) by auto. ring. }
    rewrite !G. exact E. }
  destruct HO as (Hr & Hc & Hx). unfold fit in *. rewrite preprocess_np2 in * by lia. unfold bm_fit_np in *.
  destruct (fit_changes_spec np_cholesky (o_par o) (diff0 a) dt (incr x)) as (F1 & F2 & _); [auto|cbn; lia| |].
  { intros t v Ht Hv. cbn [diff0 at2 nrow ncol] in *. rewrite !Hx by (auto; lia). unfold incr. rewrite Nat.add_1_r. reflexivity. }
  cbn [diff0 nrow ncol] in F1, F2. rewrite Hr, Hc in F1, F2. replace (n + 1 - 1)%nat with n in F1, F2 by lia.
  destruct (fit_changes np_cholesky (o_par o) (diff0 a) (Fin dt)) as [p r]. cbn [fst snd o_par] in *. destruct F as (_ & _ & F). destruct (F HI) as (-> & c & E1 & E2 & E3 & E4 & E5 & l & E6 & E7).
  destruct p as [d vol cor L]. cbn [bm_drift bm_vol bm_cor bm_L] in *. subst d vol cor L.
  set (d := map (fun v => rmean (map (fun t => incr x t v) (seq 0 n)) / dt) (seq 0 m)). set (vol := map (fun v => sqrt (rvar 1 (map (fun t => incr x t v) (seq 0 n))) / sqrt dt) (seq 0 m)).
  assert (Ld : length d = m) by (unfold d; rewrite map_length, seq_length; auto). assert (Lv : length vol = m) by (unfold vol; rewrite map_length, seq_length; auto).
  destruct (bm_core d vol (Some c) (Some l) x0 dt z steps P) as (out & Eo & K1 & K2 & K3); auto; [lia|right; congruence|rewrite Ld; auto|].
  eexists; exists out. split; [reflexivity|]. split.
  { unfold bm_path_sample. cbn [o_fit o_par]. unfold path_sample, preprocess_path. cbn -[bm_path_np]. unfold ngtb, nltb. rewrite (proj2 (rltb_true 0 dt)) by auto. cbn -[bm_path_np]. cbn [option_map] in Eo. rewrite Ld in Eo. rewrite Eo. reflexivity. }
  intros i j Hi Hj. set (dx := fun v t p => val (at2 out (t + 1) (p * m + v)) - val (at2 out t (p * m + v)) - s_mean n (incr x) v). change (sum_tp steps P (fun t p => dx i t p * dx j t p) = INR (steps * P) * s_cov n (incr x) i j). assert (Hs : 0 < sqrt dt) by (apply sqrt_lt_R0; auto).
  assert (E : forall v t p, (v < m)%nat -> (t < steps)%nat -> (p < P)%nat -> dx v t p = sqrt (s_cov n (incr x) v v) * shock m P (Some l) z t p v).
  { intros v t q Hv Ht Hq. unfold dx. rewrite Nat.add_1_r. rewrite Ld in K3. rewrite !K3 by auto. cbn [val bm_real]. unfold bm_step. rewrite Ld.
    assert (D1 : nth v d 0 = s_mean n (incr x) v / dt) by (unfold d; rewrite nth_map_seq by auto; rewrite s_mean_rmean; reflexivity).
    assert (V1 : pget vol v = sqrt (s_cov n (incr x) v v) / sqrt dt) by (rewrite pget_full by lia; unfold vol; rewrite nth_map_seq by auto; rewrite s_cov_var; reflexivity).
    rewrite D1, V1. field. split; lra. }
  rewrite (sum_tp_ext _ _ _ (fun t p => (sqrt (s_cov n (incr x) i i) * sqrt (s_cov n (incr x) j j)) * (shock m P (Some l) z t p i * shock m P (Some l) z t p j))) by (intros t q Ht Hq; rewrite !E by auto; ring).
  rewrite sum_tp_scal, (shock_cov m steps P l (s_cor n (incr x))) by auto. unfold s_cor. pose proof (sqrt_lt_R0 _ (M i Hi)). pose proof (sqrt_lt_R0 _ (M j Hj)). field. split; lra.
Qed.
Print Assumptions C98_fit_then_simulate.

(** Increments (1,0), (0,1), (0,0) of two series are independent; increments (1,2), (2,4), (0,0) are not. *)
Example C98_example : let x := fun t v => match t, v with 0%nat, _ => 0 | 1%nat, 0%nat => 1 | 1%nat, _ => 0 | _, _ => 1 end in
  observed (farr 4 2 x) 3 2 x /\ independent 3 2 (incr x)
  /\ let y := fun t v : nat => (INR v + 1) * match t with 0%nat => 0 | 1%nat => 1 | _ => 3 end in
     (forall v, (v < 2)%nat -> moves 3 (incr y) v) /\ ~ independent 3 2 (incr y).
Proof.
  cbv zeta. split; [repeat split; auto|]. split; [|split].
  - intros w (i & Hi & Hw). unfold incr. destruct (Req_dec (w 0%nat) 0) as [Z|Z].
    + exists 1%nat, 2%nat. split; [lia|]. split; [lia|]. rewrite !S_succ, !S_0. cbn. destruct i as [|[|i]]; [contradiction| |lia]. lra.
    + exists 0%nat, 2%nat. split; [lia|]. split; [lia|]. rewrite !S_succ, !S_0. cbn. lra.
  - intros v Hv. exists 0%nat, 1%nat. split; [lia|]. split; [lia|]. unfold incr. cbn. destruct v as [|[|v]]; [cbn; lra|cbn; lra|lia].
  - intros HI. destruct (HI (fun i => match i with O => 2 | _ => -1 end)) as (t & t' & Ht & Ht' & Hne); [exists 0%nat; split; [lia|lra]|]. apply Hne. rewrite !S_succ, !S_0. unfold incr. cbn [INR]. ring.
Qed.
