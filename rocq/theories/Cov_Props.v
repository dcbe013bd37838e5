(** C47, C48: covariance and correlation matrices, block matrices. *)
From Coq Require Import Reals Lra Psatz ZArith List Arith Bool Lia.
From Verif Require Import Base Num Sums Lin Sim_Model Cov_Model Cov_Spec.
Import ListNotations.
Open Scope R_scope.

Lemma nth_seq_map : forall A (f : nat -> A) n j d, (j < n)%nat -> nth j (map f (seq 0 n)) d = f j.
Proof. intros A f n j d H. rewrite (nth_indep _ d (f 0%nat)) by (rewrite map_length, seq_length; auto). rewrite map_nth, seq_nth by auto. reflexivity. Qed.

Lemma clip1_bounded : forall x, bounded (clip1 x).
Proof.
  intros x. unfold clip1, bounded, ngtb. destruct x as [r| | |]; cbn [nltb].
  - right. destruct (rltb r (-1)) eqn:E1; cbn [nltb].
    + destruct (rltb 1 (-1)) eqn:E2; [apply rltb_true in E2; lra|]. exists (-1). split; [auto|lra].
    + apply rltb_false in E1. destruct (rltb 1 r) eqn:E2; [exists 1; split; [auto|lra]|]. apply rltb_false in E2. exists r. split; [auto|lra].
  - left. reflexivity.
  - right. exists 1. split; [auto|lra].
  - right. cbn [nltb]. destruct (rltb 1 (-1)) eqn:E2; [apply rltb_true in E2; lra|]. exists (-1). split; [auto|lra].
Qed.
Lemma clip1_id : forall r, -1 <= r <= 1 -> clip1 (Fin r) = Fin r.
Proof.
  intros r H. unfold clip1, ngtb. cbn [nltb]. rewrite (proj2 (rltb_false r (-1))) by lra. cbn [nltb]. rewrite (proj2 (rltb_false 1 r)) by lra. reflexivity.
Qed.
Lemma clip1_high : forall r, 1 < r -> clip1 (Fin r) = Fin 1.
Proof. intros r H. unfold clip1, ngtb. cbn [nltb]. rewrite (proj2 (rltb_false r (-1))) by lra. cbn [nltb]. rewrite (proj2 (rltb_true 1 r)) by lra. reflexivity. Qed.
Lemma clip1_low : forall r, r < -1 -> clip1 (Fin r) = Fin (-1).
Proof. intros r H. unfold clip1, ngtb. cbn [nltb]. rewrite (proj2 (rltb_true r (-1))) by lra. cbn [nltb]. rewrite (proj2 (rltb_false 1 (-1))) by lra. reflexivity. Qed.

(** broadcasting does nothing to arrays of the same size *)
Lemma bcast2_same : forall f x y, nrow x = nrow y -> ncol x = ncol y ->
  bcast2 f x y = Ok (mkArr (nrow x) (ncol x) (fun i j => f (at2 x i j) (at2 y i j))).
Proof. intros f x y H1 H2. unfold bcast2, bdim, bix. rewrite <- H1, <- H2, !Nat.eqb_refl. reflexivity. Qed.
Lemma cov_to_cor_square : forall cov reg, nrow cov = ncol cov ->
  let std := map (fun i => nsqrt (nmaximum (at2 cov i i) reg)) (seq 0 (nrow cov)) in
  cov_to_cor cov reg = Ok (mkArr (nrow cov) (nrow cov) (fun i j => clip1 (ndiv (at2 cov i j) (nmul (nth i std NaN) (nth j std NaN)))), std).
Proof.
  intros cov reg H std. unfold cov_to_cor. rewrite <- H, Nat.min_id. fold std.
  assert (L : length std = nrow cov) by (unfold std; rewrite map_length, seq_length; reflexivity).
  rewrite bcast2_same by (cbn [outer nrow ncol]; rewrite L; auto). cbn [bind nrow ncol at2 outer]. rewrite <- H. reflexivity.
Qed.
Lemma cor_to_cov_square : forall cor std, nrow cor = length std -> ncol cor = length std ->
  cor_to_cov cor std = Ok (mkArr (nrow cor) (ncol cor) (fun i j => nmul (at2 cor i j) (nmul (nth i std NaN) (nth j std NaN)))).
Proof. intros cor std H1 H2. unfold cor_to_cov. rewrite bcast2_same by auto. reflexivity. Qed.

(** Whatever the numbers in the array, every entry of the correlation matrix is between -1 and 1 or NaN; square arrays are
    accepted. *)
Theorem C47_entries_bounded : forall cov reg, nrow cov = ncol cov ->
  exists c std, cov_to_cor cov reg = Ok (c, std) /\ nrow c = nrow cov /\ ncol c = ncol cov /\ length std = nrow cov
    /\ forall i j, bounded (at2 c i j).
Proof.
  intros cov reg H. rewrite cov_to_cor_square by auto. eexists _, _. split; [reflexivity|]. cbn [nrow ncol at2].
  split; [auto|]. split; [auto|]. split; [rewrite map_length, seq_length; auto|]. intros. apply clip1_bounded.
Qed.
Print Assumptions C47_entries_bounded.

(** the standard deviation reported for variance v *)
Definition std_of (reg v : R) : R := sqrt (Rmax v reg).
Lemma nmax_fin : forall a b, nmaximum (Fin a) (Fin b) = Fin (Rmax a b).
Proof. intros a b. unfold nmaximum, Rmax. cbn [is_nan nltb]. unfold rltb. destruct (Rlt_dec a b), (Rle_dec a b); try reflexivity; [lra|]. assert (a = b) by lra. subst. reflexivity. Qed.
Lemma std_pos : forall reg v, 0 < reg -> 0 < std_of reg v.
Proof. intros reg v H. apply sqrt_lt_R0. pose proof (Rmax_r v reg). lra. Qed.

Lemma cov_to_cor_real : forall n A reg, 0 < reg ->
  exists c, cov_to_cor (matrix n A) (Fin reg) = Ok (c, map (fun i => Fin (std_of reg (A i i))) (seq 0 n)) /\ nrow c = n /\ ncol c = n
   /\ forall i j, (i < n)%nat -> (j < n)%nat -> at2 c i j = clip1 (Fin (A i j / (std_of reg (A i i) * std_of reg (A j j)))).
Proof.
  intros n A reg Hr. rewrite cov_to_cor_square by reflexivity. unfold matrix. cbn [nrow ncol at2]. eexists.
  assert (E : map (fun i => nsqrt (nmaximum (Fin (A i i)) (Fin reg))) (seq 0 n) = map (fun i => Fin (std_of reg (A i i))) (seq 0 n)).
  { apply map_ext. intros i. rewrite nmax_fin, nsqrt_fin; [reflexivity|]. pose proof (Rmax_r (A i i) reg). lra. }
  rewrite E. split; [reflexivity|]. cbn [nrow ncol at2]. split; [auto|]. split; [auto|]. intros i j Hi Hj. rewrite !nth_seq_map by auto. cbn [nmul].
  rewrite ndiv_fin; [reflexivity|]. pose proof (std_pos reg (A i i) Hr). pose proof (std_pos reg (A j j) Hr). nra.
Qed.

(** Converting back and forth: with s_i the square root of the variance, or of reg if that is larger, the matrix comes back
    unchanged as soon as |cov_ij| <= s_i s_j; the correlation matrix holds cov_ij / (s_i s_j), so its diagonal is 1 exactly where the
    variance is at least reg.  Entries beyond s_i s_j come back as +- s_i s_j. *)
Theorem C47_round_trip : forall n A reg, 0 < reg ->
  let s i := sqrt (Rmax (A i i) reg) in
  exists c std b, cov_to_cor (matrix n A) (Fin reg) = Ok (c, std) /\ cor_to_cov c std = Ok b
    /\ std = map (fun i => Fin (s i)) (seq 0 n)
    /\ (forall i j, (i < n)%nat -> (j < n)%nat -> Rabs (A i j) <= s i * s j -> at2 c i j = Fin (A i j / (s i * s j)) /\ at2 b i j = Fin (A i j))
    /\ (forall i j, (i < n)%nat -> (j < n)%nat -> s i * s j < A i j -> at2 c i j = Fin 1 /\ at2 b i j = Fin (s i * s j))
    /\ (forall i j, (i < n)%nat -> (j < n)%nat -> A i j < - (s i * s j) -> at2 c i j = Fin (-1) /\ at2 b i j = Fin (- (s i * s j)))
    /\ (forall i, (i < n)%nat -> (at2 c i i = Fin 1 <-> reg <= A i i))
    /\ nrow b = n /\ ncol b = n.
Proof.
  intros n A reg Hr s. destruct (cov_to_cor_real n A reg Hr) as (c & E & Rc & Cc & V).
  assert (Ps : forall i, 0 < s i) by (intros k; exact (std_pos reg (A k k) Hr)).
  exists c, (map (fun i => Fin (s i)) (seq 0 n)). rewrite cor_to_cov_square by (rewrite map_length, seq_length; auto). rewrite Rc, Cc. eexists. split; [exact E|]. split; [reflexivity|]. split; [reflexivity|]. cbn [at2 nrow ncol].
  assert (Vb : forall i j, (i < n)%nat -> (j < n)%nat -> nmul (at2 c i j) (nmul (nth i (map (fun i => Fin (s i)) (seq 0 n)) NaN) (nth j (map (fun i => Fin (s i)) (seq 0 n)) NaN)) = nmul (at2 c i j) (Fin (s i * s j))).
  { intros i j Hi Hj. rewrite !nth_seq_map by auto. reflexivity. }
  assert (S2 : forall i j, 0 < s i * s j) by (intros; apply Rmult_lt_0_compat; auto).
  split; [|split; [|split; [|split; [|split; reflexivity]]]].
  - intros i j Hi Hj H. pose proof (S2 i j). rewrite Vb, V by auto. fold (s i) (s j). change (std_of reg (A i i)) with (s i). change (std_of reg (A j j)) with (s j).
    assert (Hc : -1 <= A i j / (s i * s j) <= 1).
    { assert (- (s i * s j) <= A i j <= s i * s j) by (revert H; unfold Rabs; destruct (Rcase_abs (A i j)); lra).
      split; [apply (Rmult_le_reg_r (s i * s j)); auto; unfold Rdiv; rewrite Rmult_assoc, Rinv_l by lra; lra|].
      apply (Rmult_le_reg_r (s i * s j)); auto. unfold Rdiv. rewrite Rmult_assoc, Rinv_l by lra. lra. }
    rewrite clip1_id by auto. split; [reflexivity|]. cbn [nmul]. f_equal. field. split; apply Rgt_not_eq, Ps.
  - intros i j Hi Hj H. pose proof (S2 i j). rewrite Vb, V by auto. change (std_of reg (A i i)) with (s i). change (std_of reg (A j j)) with (s j).
    rewrite clip1_high; [|apply (Rmult_lt_reg_r (s i * s j)); auto; unfold Rdiv; rewrite Rmult_assoc, Rinv_l by lra; lra]. split; [reflexivity|]. cbn [nmul]. f_equal. ring.
  - intros i j Hi Hj H. pose proof (S2 i j). rewrite Vb, V by auto. change (std_of reg (A i i)) with (s i). change (std_of reg (A j j)) with (s j).
    rewrite clip1_low; [|apply (Rmult_lt_reg_r (s i * s j)); auto; unfold Rdiv; rewrite Rmult_assoc, Rinv_l by lra; lra]. split; [reflexivity|]. cbn [nmul]. f_equal. ring.
  - intros i Hi. rewrite V by auto. change (std_of reg (A i i)) with (s i). pose proof (S2 i i).
    assert (Ess : s i * s i = Rmax (A i i) reg) by (apply sqrt_sqrt; pose proof (Rmax_r (A i i) reg); lra).
    rewrite Ess. split.
    + intros H1. destruct (Rle_dec reg (A i i)) as [|Hn]; [auto|]. exfalso. rewrite Rmax_right in H1 by lra.
      assert (A i i / reg < 1) by (apply (Rmult_lt_reg_r reg); auto; unfold Rdiv; rewrite Rmult_assoc, Rinv_l by lra; lra).
      destruct (Rle_dec (-1) (A i i / reg)); [rewrite clip1_id in H1 by lra|rewrite clip1_low in H1 by lra]; injection H1; lra.
    + intros H1. rewrite Rmax_left by lra. replace (A i i / A i i) with 1 by (field; lra). apply clip1_id. lra.
Qed.
Print Assumptions C47_round_trip.

(** off-diagonal entries of a positive semidefinite matrix *)
Lemma psd_minor : forall n A i j, psd n A -> (i < n)%nat -> (j < n)%nat -> 0 <= A i i /\ A i j * A i j <= A i i * A j j.
Proof.
  intros n A i j [Sy P] Hi Hj.
  assert (Q : forall a b, i <> j -> quad n A (fun k => if Nat.eqb k i then a else if Nat.eqb k j then b else 0) = a * a * A i i + 2 * a * b * A i j + b * b * A j j).
  { intros a b Hne. set (x := fun k : nat => if Nat.eqb k i then a else if Nat.eqb k j then b else 0). unfold quad.
    assert (Two : forall f : nat -> R, (forall k, (k < n)%nat -> k <> i -> k <> j -> f k = 0) -> sumn n f = f i + f j).
    { intros f Hf. rewrite (S_ext n f (fun k => (if Nat.eqb k i then f k else 0) + (if Nat.eqb k i then 0 else f k))) by (intros k _; destruct (Nat.eqb k i); ring).
      rewrite S_plus. rewrite (S_single n _ i Hi), (S_single n _ j Hj).
      - rewrite Nat.eqb_refl. rewrite (proj2 (Nat.eqb_neq j i)) by auto. reflexivity.
      - intros k Hk Hkj. destruct (Nat.eqb_spec k i); [reflexivity|auto].
      - intros k Hk Hki. rewrite (proj2 (Nat.eqb_neq k i)) by auto. reflexivity. }
    assert (Xi : x i = a) by (unfold x; rewrite Nat.eqb_refl; reflexivity).
    assert (Xj : x j = b) by (unfold x; rewrite Nat.eqb_refl, (proj2 (Nat.eqb_neq j i)) by auto; reflexivity).
    assert (X0 : forall k, k <> i -> k <> j -> x k = 0) by (intros k K1 K2; unfold x; rewrite (proj2 (Nat.eqb_neq k i)), (proj2 (Nat.eqb_neq k j)) by auto; reflexivity).
    rewrite Two. 2:{ intros k Hk K1 K2. rewrite (S_ext n _ (fun _ => 0)); [apply S_zero|]. intros l _. rewrite X0 by auto. ring. }
    rewrite !Two by (intros k Hk K1 K2; rewrite (X0 k) by auto; ring). rewrite Xi, Xj. rewrite (Sy j i Hj Hi). unfold mtr. ring. }
  assert (D : forall k, (k < n)%nat -> 0 <= A k k).
  { intros k Hk. specialize (P (fun l => if Nat.eqb l k then 1 else 0)). unfold quad in P.
    rewrite (S_single n _ k Hk) in P. 2:{ intros l Hl Hne. rewrite (S_ext n _ (fun _ => 0)); [apply S_zero|]. intros m _. rewrite (proj2 (Nat.eqb_neq l k)) by auto. ring. }
    rewrite (S_single n _ k Hk) in P. 2:{ intros l Hl Hne. rewrite (proj2 (Nat.eqb_neq l k)) by auto. ring. }
    rewrite Nat.eqb_refl in P. lra. }
  split; [auto|]. destruct (Nat.eq_dec i j) as [->|Hne]; [nra|].
  pose proof (D i Hi) as Di. pose proof (D j Hj) as Dj.
  destruct (Req_dec (A i i) 0) as [Z|NZ].
  - (* a large multiple of a gives a negative value unless A i j = 0 *)
    destruct (Req_dec (A i j) 0) as [Z2|NZ2]; [rewrite Z, Z2; nra|]. exfalso.
    pose proof (P (fun k => if Nat.eqb k i then - (A j j + 1) / (2 * A i j) else if Nat.eqb k j then 1 else 0)) as H. rewrite Q in H by auto. rewrite Z in H.
    replace (- (A j j + 1) / (2 * A i j) * (- (A j j + 1) / (2 * A i j)) * 0 + 2 * (- (A j j + 1) / (2 * A i j)) * 1 * A i j + 1 * 1 * A j j) with (-1) in H by (field; auto). lra.
  - pose proof (P (fun k => if Nat.eqb k i then - A i j else if Nat.eqb k j then A i i else 0)) as H. rewrite Q in H by auto.
    assert (0 < A i i) by lra. replace (- A i j * - A i j * A i i + 2 * - A i j * A i i * A i j + A i i * A i i * A j j) with (A i i * (A i i * A j j - A i j * A i j)) in H by ring.
    apply Rmult_le_reg_l with (A i i); [auto|]. rewrite Rmult_0_r || idtac. nra.
Qed.

(** A covariance matrix with variances of at least reg becomes a correlation matrix and is recovered exactly from it. *)
Theorem C47_covariance : forall n A reg, 0 < reg -> psd n A -> (forall i, (i < n)%nat -> reg <= A i i) ->
  exists c std b C, cov_to_cor (matrix n A) (Fin reg) = Ok (c, std) /\ holds_matrix c n C /\ correlation_matrix n C
    /\ cor_to_cov c std = Ok b /\ holds_matrix b n A.
Proof.
  intros n A reg Hr HP Hv. destruct (C47_round_trip n A reg Hr) as (c & std & b & E1 & E2 & Es & H1 & _ & _ & HD & Rb & Cb).
  set (s := fun i => sqrt (Rmax (A i i) reg)) in *.
  assert (Ps : forall i, 0 < s i) by (intros k; exact (std_pos reg (A k k) Hr)).
  assert (Bd : forall i j, (i < n)%nat -> (j < n)%nat -> Rabs (A i j) <= s i * s j).
  { intros i j Hi Hj. destruct (psd_minor n A i j HP Hi Hj) as [_ M]. unfold s. rewrite !Rmax_left by (auto; apply Hv; auto).
    pose proof (Hv i Hi). pose proof (Hv j Hj). rewrite <- sqrt_mult by lra. rewrite <- sqrt_Rsqr_abs. apply sqrt_le_1_alt. unfold Rsqr. lra. }
  destruct (C47_entries_bounded (matrix n A) (Fin reg) eq_refl) as (c' & std' & E1' & Rc & Cc & _). rewrite E1 in E1'. injection E1' as <- <-. cbn [matrix nrow ncol] in Rc, Cc.
  exists c, std, b, (fun i j => A i j / (s i * s j)). split; [exact E1|].
  assert (Hc : holds_matrix c n (fun i j => A i j / (s i * s j))) by (split; [exact Rc|split; [exact Cc|]]; intros i j Hi Hj; exact (proj1 (H1 i j Hi Hj (Bd i j Hi Hj)))).
  split; [exact Hc|]. split; [|split; [exact E2|]].
  - split.
    + destruct HP as [Sy P]. split.
      * intros i j Hi Hj. unfold mtr. rewrite (Sy i j Hi Hj). unfold mtr. rewrite (Rmult_comm (s i)). reflexivity.
      * intros x. replace (quad n (fun i j => A i j / (s i * s j)) x) with (quad n A (fun i => x i / s i)); [apply P|].
        unfold quad. apply S_ext. intros i _. apply S_ext. intros j _. field. split; apply Rgt_not_eq, Ps.
    + intros i Hi. pose proof (proj2 (HD i Hi) (Hv i Hi)) as Hd. destruct (H1 i i Hi Hi (Bd i i Hi Hi)) as [Hd2 _]. rewrite Hd2 in Hd. injection Hd; auto.
  - split; [auto|split; [auto|]]. intros i j Hi Hj. exact (proj2 (H1 i j Hi Hj (Bd i j Hi Hj))).
Qed.
Print Assumptions C47_covariance.

(** Entry (i,j) of the correlation matrix depends on cov_ij and the two variances only, so that a NaN off the diagonal reaches
    that entry alone, a NaN variance makes the standard deviation and its row and column NaN, and an infinite variance makes the finite
    covariances with that asset zero correlations and its own correlation NaN; the numbers may be anything. *)
Theorem C47_local : forall cov reg, nrow cov = ncol cov -> 0 < reg ->
  exists c std, cov_to_cor cov (Fin reg) = Ok (c, std) /\ length std = nrow cov
    /\ (forall cov' c' std', nrow cov' = nrow cov -> ncol cov' = ncol cov -> cov_to_cor cov' (Fin reg) = Ok (c', std') ->
          (forall i, (i < nrow cov)%nat -> at2 cov' i i = at2 cov i i -> nth i std' NaN = nth i std NaN)
          /\ (forall i j, (i < nrow cov)%nat -> (j < nrow cov)%nat -> at2 cov' i i = at2 cov i i -> at2 cov' j j = at2 cov j j -> at2 cov' i j = at2 cov i j ->
                at2 c' i j = at2 c i j))
    /\ (forall i, (i < nrow cov)%nat -> (nth i std NaN = NaN <-> at2 cov i i = NaN))
    /\ (forall i j, (i < nrow cov)%nat -> (j < nrow cov)%nat -> at2 cov i j = NaN \/ at2 cov i i = NaN \/ at2 cov j j = NaN -> at2 c i j = NaN)
    /\ (forall i j r, (i < nrow cov)%nat -> (j < nrow cov)%nat -> at2 cov i i = PInf -> at2 cov j j <> NaN -> at2 cov i j = Fin r -> at2 c i j = Fin 0)
    /\ (forall i, (i < nrow cov)%nat -> at2 cov i i = PInf -> nth i std NaN = PInf /\ at2 c i i = NaN)
    /\ (forall i, (i < nrow cov)%nat -> at2 cov i i = NInf -> nth i std NaN = Fin (sqrt reg) /\ at2 c i i = Fin (-1)).
Proof.
  intros cov reg H Hr. rewrite cov_to_cor_square by auto. eexists _, _. split; [reflexivity|]. cbn [at2]. rewrite map_length, seq_length. split; [reflexivity|].
  assert (Sr : 0 < sqrt reg) by (apply sqrt_lt_R0; auto).
  split.
  { intros cov' c' std' R' C' E. rewrite cov_to_cor_square in E by congruence. injection E as <- <-. cbn [at2]. rewrite R'. split.
    - intros i Hi E. rewrite !nth_seq_map by auto. rewrite E. reflexivity.
    - intros i j Hi Hj E1 E2 E3. rewrite !nth_seq_map by auto. rewrite E1, E2, E3. reflexivity. }
  assert (P : forall x, x <> NaN -> (exists s, nsqrt (nmaximum x (Fin reg)) = Fin s /\ 0 < s) \/ nsqrt (nmaximum x (Fin reg)) = PInf).
  { intros x Hx. destruct x as [r| | |]; try congruence.
    - left. rewrite nmax_fin. pose proof (Rmax_r r reg). rewrite nsqrt_fin by lra. eexists. split; [reflexivity|]. apply sqrt_lt_R0. lra.
    - right. reflexivity.
    - left. unfold nmaximum. cbn [is_nan nltb]. rewrite nsqrt_fin by lra. eauto. }
  split; [|split; [|split; [|split]]].
  - intros i Hi. rewrite nth_seq_map by auto. split.
    + intros E. destruct (at2 cov i i) as [r| | |] eqn:Ec; [| reflexivity | |];
        destruct (P (at2 cov i i)) as [(s & E' & _)|E']; rewrite Ec in *; congruence.
    + intros ->. reflexivity.
  - intros i j Hi Hj E. rewrite !nth_seq_map by auto. destruct E as [-> | [-> | ->]]; [reflexivity| |]; unfold nmaximum; cbn [is_nan nsqrt nmul ndiv].
    + destruct (at2 cov i j); reflexivity.
    + destruct (nsqrt _), (at2 cov i j); reflexivity.
  - intros i j r Hi Hj E1 E2 E3. rewrite !nth_seq_map by auto. rewrite E1, E3. destruct (P _ E2) as [(s & -> & Hs)| ->].
    + unfold nmaximum. cbn [is_nan nltb nsqrt nmul]. unfold sgn_inf. rewrite (proj2 (rltb_true 0 s)) by auto. cbn [ndiv]. apply clip1_id. lra.
    + unfold nmaximum. cbn [is_nan nltb nsqrt nmul ndiv]. apply clip1_id. lra.
  - intros i Hi E. rewrite !nth_seq_map by auto. rewrite E. split; [reflexivity|]. reflexivity.
  - intros i Hi E. rewrite !nth_seq_map by auto. rewrite E. unfold nmaximum. cbn [is_nan nltb]. rewrite nsqrt_fin by lra. split; [reflexivity|]. cbn [nmul ndiv]. rewrite sqrt_sqrt by lra. rewrite (proj2 (rltb_false reg 0)) by lra. unfold clip1, ngtb. cbn [nltb]. rewrite (proj2 (rltb_false 1 (-1))) by lra. reflexivity.
Qed.
Print Assumptions C47_local.
(** a 2 x 2 array with a NaN variance *)
Example C47_local_example : let cov := mkArr 2 2 (fun i j => match i, j with 0%nat, 0%nat => Fin 4 | 1%nat, 1%nat => NaN | _, _ => Fin 1 end) in
  nrow cov = ncol cov /\ 0 < / 1000000 /\ at2 cov 1 1 = NaN.
Proof. cbn. split; [reflexivity|]. split; [lra|reflexivity]. Qed.

(** What happens to arrays of other shapes.  A covariance array which is not square is rejected when both dimensions are at least two;
    with a single row (or column) every entry is divided by the variance in the corner, or by cov_reg if that is larger; with a single row and no column, or the
    reverse, the result is empty.  A correlation array and a vector of standard deviations are rejected unless each dimension of the array is the
    length of the vector or one of the two is 1; a vector with one entry scales the array by its square, and a 1 x 1 array scales the outer product. *)
Theorem C47_rejects :
  (forall cov reg, nrow cov <> ncol cov -> (2 <= nrow cov)%nat -> (2 <= ncol cov)%nat -> cov_to_cor cov reg = Raise ValueError)
  /\ (forall cov reg, nrow cov <> ncol cov -> nrow cov <> 1%nat -> ncol cov <> 1%nat -> cov_to_cor cov reg = Raise ValueError)
  /\ (forall cov reg, 0 < reg -> (nrow cov = 1%nat /\ (1 <= ncol cov)%nat \/ ncol cov = 1%nat /\ (1 <= nrow cov)%nat) -> forall v, at2 cov 0 0 = Fin v ->
        exists c, cov_to_cor cov (Fin reg) = Ok (c, [Fin (sqrt (Rmax v reg))]) /\ nrow c = nrow cov /\ ncol c = ncol cov
          /\ forall i j x, (i < nrow cov)%nat -> (j < ncol cov)%nat -> at2 cov i j = Fin x -> at2 c i j = Fin (Rmax (-1) (Rmin 1 (x / Rmax v reg))))
  /\ (forall cov reg, (nrow cov = 1%nat /\ ncol cov = 0%nat \/ nrow cov = 0%nat /\ ncol cov = 1%nat) -> exists c, cov_to_cor cov reg = Ok (c, []) /\ nrow c = 0%nat /\ ncol c = 0%nat)
  /\ (forall cor std, let fits d := d = length std \/ d = 1%nat \/ length std = 1%nat in
        ~ (fits (nrow cor) /\ fits (ncol cor)) <-> cor_to_cov cor std = Raise ValueError)
  /\ (forall cor s, exists c, cor_to_cov cor [s] = Ok c /\ nrow c = nrow cor /\ ncol c = ncol cor
        /\ forall i j, (i < nrow cor)%nat -> (j < ncol cor)%nat -> at2 c i j = nmul (at2 cor i j) (nmul s s))
  /\ (forall cor std, nrow cor = 1%nat -> ncol cor = 1%nat -> exists c, cor_to_cov cor std = Ok c /\ nrow c = length std /\ ncol c = length std
        /\ forall i j, (i < length std)%nat -> (j < length std)%nat -> at2 c i j = nmul (at2 cor 0 0) (nmul (nth i std NaN) (nth j std NaN))).
Proof.
  assert (Bad : forall cov reg, nrow cov <> ncol cov -> nrow cov <> 1%nat -> ncol cov <> 1%nat -> cov_to_cor cov reg = Raise ValueError).
  { intros cov reg H H1 H2. unfold cov_to_cor, bcast2, bdim. cbn [outer nrow ncol]. rewrite map_length, seq_length.
    destruct (Nat.eqb_spec (nrow cov) (Nat.min (nrow cov) (ncol cov))), (Nat.eqb_spec (ncol cov) (Nat.min (nrow cov) (ncol cov))); try lia;
      rewrite ?(proj2 (Nat.eqb_neq (nrow cov) 1)), ?(proj2 (Nat.eqb_neq (ncol cov) 1)), ?(proj2 (Nat.eqb_neq (Nat.min (nrow cov) (ncol cov)) 1)) by lia; reflexivity. }
  split; [intros; apply Bad; lia|]. split; [exact Bad|]. split; [|split; [|split; [|split]]].
  - intros cov reg Hr Hs v Hv. unfold cov_to_cor. replace (Nat.min (nrow cov) (ncol cov)) with 1%nat by lia. cbn [seq map]. rewrite Hv, nmax_fin. pose proof (Rmax_r v reg). rewrite nsqrt_fin by lra.
    set (m := Rmax v reg) in *.
    assert (B : forall a, (1 <= a)%nat -> bdim a 1 = Some a) by (intros a Ha; unfold bdim; destruct (Nat.eqb_spec a 1) as [E|_]; reflexivity).
    unfold bcast2, outer. cbn [length nrow ncol]. rewrite !B by lia. cbn [bind nrow ncol at2]. eexists. split; [reflexivity|]. cbn [nrow ncol at2]. split; [auto|]. split; [auto|].
    intros i j x Hi Hj Hx. assert (X : forall a k, (k < a)%nat -> bix a a k = k /\ bix 1 a k = 0%nat) by (intros a k Hk; unfold bix; rewrite Nat.eqb_refl; split; [auto|]; destruct (Nat.eqb_spec 1 a); lia).
    destruct (X (nrow cov) i Hi) as [-> ->]. destruct (X (ncol cov) j Hj) as [-> ->]. rewrite Hx. cbn [nth nmul]. rewrite sqrt_sqrt by lra. rewrite ndiv_fin by lra.
    set (q := x / m). destruct (Rlt_dec 1 q) as [L|L].
    + rewrite clip1_high by auto. rewrite Rmin_left by lra. rewrite Rmax_right by lra. reflexivity.
    + rewrite Rmin_right by lra. destruct (Rlt_dec q (-1)) as [L2|L2].
      * rewrite clip1_low by auto. rewrite Rmax_left by lra. reflexivity.
      * rewrite clip1_id by lra. rewrite Rmax_right by lra. reflexivity.
  - intros cov reg [[E1 E2]|[E1 E2]]; unfold cov_to_cor, bcast2, outer, bdim; rewrite E1, E2; cbn; eexists; split; [reflexivity| |reflexivity|]; auto.
  - intros cor std fits. unfold cor_to_cov, bcast2. cbn [outer nrow ncol].
    assert (B : forall d, match bdim d (length std) with Some _ => fits d | None => ~ fits d end).
    { intros d. unfold bdim, fits. destruct (Nat.eqb_spec d (length std)); [auto|]. destruct (Nat.eqb_spec d 1); [auto|]. destruct (Nat.eqb_spec (length std) 1); [auto|]. tauto. }
    pose proof (B (nrow cor)) as B1. pose proof (B (ncol cor)) as B2. destruct (bdim (nrow cor) (length std)), (bdim (ncol cor) (length std)); split; intros; try reflexivity; try discriminate; tauto.
  - intros cor s. unfold cor_to_cov, bcast2. cbn [outer nrow ncol length].
    assert (B : forall a, bdim a 1 = Some a) by (intros a; unfold bdim; destruct (Nat.eqb_spec a 1) as [E|_]; reflexivity).
    rewrite !B. eexists. split; [reflexivity|]. cbn [nrow ncol at2]. split; [auto|]. split; [auto|]. intros i j Hi Hj.
    assert (X : forall a k, (k < a)%nat -> bix a a k = k /\ bix 1 a k = 0%nat) by (intros a k Hk; unfold bix; rewrite Nat.eqb_refl; split; [auto|]; destruct (Nat.eqb_spec 1 a); lia).
    destruct (X (nrow cor) i Hi) as [-> ->]. destruct (X (ncol cor) j Hj) as [-> ->]. reflexivity.
  - intros cor std E1 E2. unfold cor_to_cov, bcast2. cbn [outer nrow ncol at2]. rewrite E1, E2.
    assert (B : bdim 1 (length std) = Some (length std)) by (unfold bdim; destruct (Nat.eqb_spec 1 (length std)) as [E|_]; [f_equal; auto|reflexivity]).
    rewrite !B. eexists. split; [reflexivity|]. cbn [nrow ncol at2]. split; [auto|]. split; [auto|]. intros i j Hi Hj.
    assert (X : forall a k, (k < a)%nat -> bix a a k = k /\ bix 1 a k = 0%nat) by (intros a k Hk; unfold bix; rewrite Nat.eqb_refl; split; [auto|]; destruct (Nat.eqb_spec 1 a); lia).
    destruct (X (length std) i Hi) as [-> ->]. destruct (X (length std) j Hj) as [-> ->]. reflexivity.
Qed.
Print Assumptions C47_rejects.
(** a 2 x 3 array, a row of three, and a 2 x 2 array with three standard deviations *)
Example C47_rejects_example : let a r c := mkArr r c (fun _ _ => Fin 1) in
  (nrow (a 2 3) <> ncol (a 2 3) /\ 2 <= nrow (a 2 3) /\ 2 <= ncol (a 2 3))%nat /\ (nrow (a 1 3) = 1 /\ 1 <= ncol (a 1 3))%nat
  /\ ~ (2 = length [Fin 1; Fin 2; Fin 3] \/ 2 = 1 \/ length [Fin 1; Fin 2; Fin 3] = 1)%nat.
Proof. cbn. lia. Qed.

(** [[4,2],[2,9]] with the default regularisation *)
Example C47_example : exists A, psd 2 A /\ (forall i, (i < 2)%nat -> / 1000000 <= A i i) /\ A 0%nat 1%nat = 2.
Proof.
  exists (fun i j => match i, j with 0%nat, 0%nat => 4 | 1%nat, 1%nat => 9 | _, _ => 2 end). split; [|split; [|reflexivity]].
  - split; [intros [|[|i]] [|[|j]] Hi Hj; try lia; reflexivity|]. intros x. unfold quad, sumn. cbn. pose proof (Rle_0_sqr (2 * x 0%nat + x 1%nat)). pose proof (Rle_0_sqr (x 1%nat)). unfold Rsqr in *. nra.
  - intros [|[|i]] Hi; try lia; lra.
Qed.

(** ** C48 *)
Lemma in_block_unique : forall sizes b b' i, in_block sizes b i -> in_block sizes b' i -> b = b'.
Proof.
  assert (Mono : forall sizes a b, (a <= b)%nat -> (list_sum (firstn a sizes) <= list_sum (firstn b sizes))%nat).
  { induction sizes as [|x l IH]; intros a b Hab; [rewrite !firstn_nil; lia|]. destruct a as [|a]; [cbn; lia|]. destruct b as [|b]; [lia|]. cbn [firstn list_sum fold_right]. specialize (IH a b ltac:(lia)). unfold list_sum in IH. lia. }
  intros sizes b b' i (H1 & H2 & H3) (H4 & H5 & H6). destruct (Nat.lt_total b b') as [H|[H|H]]; [|auto|].
  - pose proof (Mono sizes (S b) b' ltac:(lia)). lia.
  - pose proof (Mono sizes (S b') b ltac:(lia)). lia.
Qed.
Lemma in_block_exists : forall sizes i, (i < list_sum sizes)%nat -> exists b, in_block sizes b i.
Proof.
  induction sizes as [|x l IH]; intros i Hi; [cbn in Hi; lia|]. destruct (Nat.lt_ge_cases i x) as [H|H].
  - exists 0%nat. split; [cbn; lia|]. cbn. lia.
  - cbn [list_sum fold_right] in Hi. fold (list_sum l) in Hi. destruct (IH (i - x)%nat ltac:(unfold list_sum in *; lia)) as (b & B1 & B2 & B3). exists (S b). split; [cbn; lia|].
    change (firstn (S b) (x :: l)) with (x :: firstn b l). change (firstn (S (S b)) (x :: l)) with (x :: firstn (S b) l).
    split; cbn [list_sum fold_right]; unfold list_sum in *; lia.
Qed.

(** the loop, started at position i0 *)
Lemma fill_blocks_other : forall bs a i0 r s, (r < i0 \/ s < i0)%nat -> fill_blocks a i0 bs r s = a r s.
Proof.
  induction bs as [|[m c] bs IH]; intros a i0 r s H; [reflexivity|]. cbn [fill_blocks]. rewrite IH by lia. unfold fill.
  destruct H; [rewrite (proj2 (Nat.leb_gt i0 r)) by auto; reflexivity|rewrite (proj2 (Nat.leb_gt i0 s)) by auto; rewrite andb_false_r; reflexivity].
Qed.
Lemma fill_blocks_spec : forall sizes cors a i0 r s b b', length sizes = length cors -> in_block sizes b r -> in_block sizes b' s ->
  fill_blocks a i0 (combine sizes cors) (i0 + r) (i0 + s) = if Nat.eqb b b' then nth b cors NaN else a (i0 + r)%nat (i0 + s)%nat.
Proof.
  induction sizes as [|m sizes IH]; intros cors a i0 r s b b' HL Hb Hb'; [destruct Hb; cbn in *; lia|].
  destruct cors as [|c cors]; [discriminate|]. cbn [combine fill_blocks]. cbn [length] in HL.
  assert (St : forall b i, in_block (m :: sizes) b i -> match b with O => (i < m)%nat | S b1 => (m <= i)%nat /\ in_block sizes b1 (i - m) end).
  { intros b0 i (H1 & H2 & H3). destruct b0 as [|b1].
    - cbn in H3. lia.
    - change (firstn (S b1) (m :: sizes)) with (m :: firstn b1 sizes) in H2. change (firstn (S (S b1)) (m :: sizes)) with (m :: firstn (S b1) sizes) in H3.
      cbn [list_sum fold_right length] in *. unfold in_block, list_sum in *. lia. }
  apply St in Hb. apply St in Hb'. destruct b as [|b], b' as [|b'].
  - rewrite fill_blocks_other by lia. unfold fill. rewrite (proj2 (Nat.leb_le i0 (i0 + r))), (proj2 (Nat.leb_le i0 (i0 + s))), (proj2 (Nat.ltb_lt (i0 + r) (i0 + m))), (proj2 (Nat.ltb_lt (i0 + s) (i0 + m))) by lia. reflexivity.
  - rewrite fill_blocks_other by lia. unfold fill. rewrite (proj2 (Nat.ltb_ge (i0 + s) (i0 + m))) by lia. rewrite andb_false_r. reflexivity.
  - rewrite fill_blocks_other by lia. unfold fill. rewrite (proj2 (Nat.ltb_ge (i0 + r) (i0 + m))) by lia. rewrite andb_false_r. reflexivity.
  - destruct Hb as [R1 R2], Hb' as [S1 S2].
    replace (i0 + r)%nat with (i0 + m + (r - m))%nat by lia. replace (i0 + s)%nat with (i0 + m + (s - m))%nat by lia.
    rewrite (IH cors _ (i0 + m)%nat (r - m)%nat (s - m)%nat b b') by (auto; lia). cbn [Nat.eqb nth]. destruct (Nat.eqb b b'); [reflexivity|].
    unfold fill. rewrite (proj2 (Nat.ltb_ge (i0 + m + (r - m)) (i0 + m))) by lia. rewrite andb_false_r. reflexivity.
Qed.

(** The matrix has a row and a column for every asset, 1 on the diagonal, the block's correlation between two assets of the same
    block, and 0 between assets of different blocks; different numbers of sizes and correlations are rejected. *)
Theorem C48_block_diagonal : forall sizes cors,
  (length sizes <> length cors -> cor_block_diagonal sizes cors = Raise ValueError)
  /\ (length sizes = length cors -> exists a, cor_block_diagonal sizes cors = Ok a /\ nrow a = list_sum sizes /\ ncol a = list_sum sizes
      /\ (forall i, (i < list_sum sizes)%nat -> (exists b, in_block sizes b i) /\ at2 a i i = Fin 1)
      /\ (forall b i j, in_block sizes b i -> in_block sizes b j -> i <> j -> at2 a i j = nth b cors NaN)
      /\ (forall b b' i j, in_block sizes b i -> in_block sizes b' j -> b <> b' -> at2 a i j = Fin 0)).
Proof.
  intros sizes cors. unfold cor_block_diagonal. split.
  - intros H. rewrite (proj2 (Nat.eqb_neq _ _) H). reflexivity.
  - intros H. rewrite (proj2 (Nat.eqb_eq _ _) H). cbn [negb]. destruct (Nat.eqb_spec (length sizes) 0) as [E|E].
    + destruct sizes; [|discriminate]. eexists. split; [reflexivity|]. cbn. split; [auto|]. split; [auto|]. split; [intros; lia|]. split; intros b; [intros i j [H1 _]; cbn in H1; lia|intros b' i j [H1 _]; cbn in H1; lia].
    + eexists. split; [reflexivity|]. cbn [nrow ncol at2]. split; [auto|]. split; [auto|].
      assert (V : forall b b' i j, in_block sizes b i -> in_block sizes b' j -> i <> j -> fill_diagonal (fill_blocks (fun _ _ => Fin 0) 0 (combine sizes cors)) i j = if Nat.eqb b b' then nth b cors NaN else Fin 0).
      { intros b b' i j Hb Hb' Hij. unfold fill_diagonal. rewrite (proj2 (Nat.eqb_neq i j)) by auto.
        exact (fill_blocks_spec sizes cors (fun _ _ => Fin 0) 0 i j b b' H Hb Hb'). }
      split; [intros i Hi; split; [apply in_block_exists; auto|unfold fill_diagonal; rewrite Nat.eqb_refl; reflexivity]|]. split.
      * intros b i j Hb Hb' Hij. rewrite (V b b i j) by auto. rewrite Nat.eqb_refl. reflexivity.
      * intros b b' i j Hb Hb' Hbb. rewrite (V b b' i j); auto; [rewrite (proj2 (Nat.eqb_neq b b')) by auto; reflexivity|]. intros ->. apply Hbb. eapply in_block_unique; eauto.
Qed.
Print Assumptions C48_block_diagonal.

Lemma S_le_square : forall n (t x : nat -> R), (forall i, t i = 0 \/ t i = 1) -> sumn n (fun i => t i * x i) * sumn n (fun i => t i * x i) <= sumn n t * sumn n (fun i => t i * (x i * x i)).
Proof.
  intros n t x Ht. assert (N : 0 <= sumn n t) by (apply S_nonneg; intros i _; destruct (Ht i); lra).
  set (m := sumn n t) in *. set (S1 := sumn n (fun i => t i * x i)). set (Q := sumn n (fun i => t i * (x i * x i))).
  assert (E : 0 <= m * m * Q - 2 * m * S1 * S1 + S1 * S1 * m).
  { replace (m * m * Q - 2 * m * S1 * S1 + S1 * S1 * m) with (sumn n (fun i => t i * ((m * x i - S1) * (m * x i - S1)))).
    - apply S_nonneg. intros i _. destruct (Ht i) as [-> | ->]; [lra|]. pose proof (Rle_0_sqr (m * x i - S1)). unfold Rsqr in *. lra.
    - rewrite (S_ext n _ (fun i => (m * m) * (t i * (x i * x i)) + ((- 2 * m * S1) * (t i * x i) + (S1 * S1) * t i))) by (intros; ring). rewrite !S_plus, !S_scal. fold S1 Q m. ring. }
  destruct (Req_dec m 0) as [Z|NZ].
  - (* no member: every t is zero *)
    assert (T0 : forall i, (i < n)%nat -> t i = 0).
    { intros i Hi. assert (t i <= m) by (apply (S_ge_term n t i Hi); intros k _; destruct (Ht k); lra). destruct (Ht i); lra. }
    unfold S1. rewrite (S_ext n (fun i => t i * x i) (fun _ => 0)) by (intros i Hi; rewrite T0 by auto; ring). rewrite S_zero, Z. lra.
  - assert (0 < m) by lra. assert (0 <= m * (m * Q - S1 * S1)) by lra. nra.
Qed.

(** A block matrix is a correlation matrix exactly when every block of m >= 2 assets has a correlation between -1/(m-1) and 1. *)
Theorem C48_valid_iff : forall sizes (rhos : list R), length sizes = length rhos ->
  exists a A, cor_block_diagonal sizes (map Fin rhos) = Ok a /\ holds_matrix a (list_sum sizes) A
   /\ (correlation_matrix (list_sum sizes) A <->
       forall b, (b < length sizes)%nat -> (2 <= nth b sizes 0)%nat -> - 1 / INR (nth b sizes 0%nat - 1) <= nth b rhos 0 <= 1).
Proof.
  intros sizes rhos HL. destruct (C48_block_diagonal sizes (map Fin rhos)) as [_ C]. rewrite map_length in C. destruct (C HL) as (a & E & Ra & Ca & Hd & Hs & Ho).
  set (N := list_sum sizes) in *. set (B := length sizes).
  (* membership as a 0/1 number *)
  set (mem := fun b i : nat => if (Nat.leb (list_sum (firstn b sizes)) i && Nat.ltb i (list_sum (firstn (S b) sizes)))%bool then 1 else 0).
  assert (M01 : forall b i, mem b i = 0 \/ mem b i = 1) by (intros b i; unfold mem; destruct (_ && _); auto).
  assert (Min : forall b i, (b < B)%nat -> (mem b i = 1 <-> in_block sizes b i)).
  { intros b i Hb. unfold mem, in_block. destruct (Nat.leb_spec (list_sum (firstn b sizes)) i), (Nat.ltb_spec i (list_sum (firstn (S b) sizes))); cbn [andb]; split; intros HH; try lra; try lia; repeat split; auto; lia. }
  set (A := fun i j => sumn B (fun b => mem b i * mem b j * nth b rhos 0) + (if Nat.eqb i j then 1 - sumn B (fun b => mem b i * nth b rhos 0) else 0)).
  assert (One : forall (f : nat -> R) b i, in_block sizes b i -> sumn B (fun c => mem c i * f c) = f b).
  { intros f b i Hb. rewrite (S_single B _ b); [|apply Hb|].
    - rewrite (proj2 (Min b i (proj1 Hb)) Hb). ring.
    - intros c Hc Hne. destruct (M01 c i) as [-> | H1]; [ring|]. exfalso. apply Hne. apply (Min c i Hc) in H1. eapply in_block_unique; eauto. }
  assert (HA : forall i j, (i < N)%nat -> (j < N)%nat -> at2 a i j = Fin (A i j)).
  { intros i j Hi Hj. destruct (Hd i Hi) as [[b Hb] D1]. destruct (Hd j Hj) as [[b' Hb'] _]. unfold A.
    rewrite (S_ext B _ (fun c => mem c i * (mem c j * nth c rhos 0))) by (intros; ring). rewrite (One _ b i Hb).
    destruct (Nat.eqb_spec i j) as [<-|Hij].
    - rewrite (One _ b i Hb). rewrite (proj2 (Min b i (proj1 Hb)) Hb). rewrite D1. f_equal. ring.
    - destruct (Nat.eq_dec b b') as [<-|Hbb].
      + rewrite (Hs b i j Hb Hb' Hij). rewrite (proj2 (Min b j (proj1 Hb)) Hb'). rewrite (nth_indep _ NaN (Fin 0)) by (rewrite map_length; rewrite <- HL; apply Hb). rewrite map_nth. f_equal. ring.
      + rewrite (Ho b b' i j Hb Hb' Hbb). destruct (M01 b j) as [-> | H1]; [f_equal; ring|]. exfalso. apply Hbb. apply (Min b j (proj1 Hb)) in H1. eapply in_block_unique; eauto. }
  exists a, A. split; [exact E|]. split; [split; [exact Ra|split; [exact Ca|exact HA]]|].
  assert (Cnt : forall b, (b < B)%nat -> sumn N (mem b) = INR (nth b sizes 0%nat)).
  { intros b Hb. unfold mem.
    assert (Nx : list_sum (firstn (S b) sizes) = (list_sum (firstn b sizes) + nth b sizes 0)%nat).
    { unfold B in Hb. clear -Hb. revert b Hb. induction sizes as [|x l IH]; intros b Hb; [cbn in Hb; lia|]. destruct b as [|b]; [cbn; lia|].
      change (firstn (S (S b)) (x :: l)) with (x :: firstn (S b) l). change (firstn (S b) (x :: l)) with (x :: firstn b l). cbn [list_sum fold_right nth]. specialize (IH b ltac:(cbn in Hb; lia)). unfold list_sum in *. lia. }
    assert (Le : (list_sum (firstn (S b) sizes) <= N)%nat).
    { unfold N. rewrite <- (firstn_skipn (S b) sizes) at 2. rewrite list_sum_app. lia. }
    rewrite Nx in *. set (lo := list_sum (firstn b sizes)) in *. set (m := nth b sizes 0%nat) in *. clearbody lo m. clear -Le.
    (* count of lo <= i < lo+m below N *)
    assert (G : forall k, sumn k (fun i => if (Nat.leb lo i && Nat.ltb i (lo + m))%bool then 1 else 0) = INR (Nat.min m (k - lo))).
    { induction k as [|k IH]; [rewrite S_0, Nat.min_0_r; reflexivity|]. rewrite S_succ, IH.
      destruct (Nat.leb_spec lo k), (Nat.ltb_spec k (lo + m)); cbn [andb].
      - replace (Nat.min m (S k - lo)) with (S (Nat.min m (k - lo))) by lia. rewrite S_INR. ring.
      - replace (Nat.min m (S k - lo)) with (Nat.min m (k - lo)) by lia. ring.
      - replace (Nat.min m (S k - lo)) with (Nat.min m (k - lo)) by lia. ring.
      - replace (Nat.min m (S k - lo)) with (Nat.min m (k - lo)) by lia. ring. }
    rewrite G. f_equal. lia. }
  assert (QA : forall x, quad N A x = sumn B (fun b => nth b rhos 0 * (sumn N (fun i => mem b i * x i) * sumn N (fun i => mem b i * x i)) + (1 - nth b rhos 0) * sumn N (fun i => mem b i * (x i * x i)))).
  { intros x. unfold quad, A.
    rewrite (S_ext N _ (fun i => sumn B (fun b => nth b rhos 0 * (mem b i * x i) * sumn N (fun j => mem b j * x j)) + sumn B (fun b => mem b i * ((1 - nth b rhos 0) * (x i * x i))))).
    2:{ intros i Hi. rewrite (S_ext N _ (fun j => sumn B (fun b => nth b rhos 0 * (mem b i * x i) * (mem b j * x j)) + (if Nat.eqb j i then (1 - sumn B (fun b => mem b i * nth b rhos 0)) * (x i * x i) else 0))).
        - rewrite S_plus. f_equal.
          + rewrite S_swap. apply S_ext. intros b _. rewrite S_scal. reflexivity.
          + rewrite (S_single N _ i Hi) by (intros j _ Hne; rewrite (proj2 (Nat.eqb_neq j i)) by auto; reflexivity). rewrite Nat.eqb_refl.
            destruct (proj1 (Hd i Hi)) as [b Hb]. rewrite (One _ b i Hb). rewrite (One _ b i Hb). reflexivity.
        - intros j Hj. rewrite Nat.eqb_sym. rewrite Rmult_plus_distr_l, Rmult_plus_distr_r. f_equal.
          + rewrite <- S_scal, <- S_scal_r. apply S_ext. intros b _. ring.
          + destruct (Nat.eqb_spec j i) as [->|]; ring. }
    rewrite S_plus, (S_swap N B), (S_swap N B (fun i b => mem b i * ((1 - nth b rhos 0) * (x i * x i)))), <- S_plus. apply S_ext. intros b _.
    rewrite S_scal_r. rewrite S_scal.
    rewrite (S_ext N (fun i => mem b i * ((1 - nth b rhos 0) * (x i * x i))) (fun i => (1 - nth b rhos 0) * (mem b i * (x i * x i)))) by (intros; ring). rewrite S_scal. ring. }
  assert (SyA : symmetric N A).
  { intros i j Hi Hj. unfold mtr, A. rewrite Nat.eqb_sym. destruct (Nat.eqb_spec j i) as [->|]; [reflexivity|]. f_equal. apply S_ext. intros. ring. }
  assert (DA : forall i, (i < N)%nat -> A i i = 1).
  { intros i Hi. pose proof (HA i i Hi Hi) as H1. destruct (Hd i Hi) as [_ H2]. rewrite H2 in H1. injection H1; auto. }
  split.
  - intros [[_ P] _] b Hb H2. set (m := nth b sizes 0%nat) in *. set (rho := nth b rhos 0).
    assert (Mm : INR (m - 1) = INR m - 1) by (rewrite minus_INR by lia; reflexivity).
    assert (M2 : 2 <= INR m) by (change 2 with (INR 2); apply le_INR; auto).
    (* distinct blocks do not overlap *)
    assert (Dis : forall c i, (c < B)%nat -> c <> b -> mem c i * mem b i = 0).
    { intros c i Hc Hne. destruct (M01 c i) as [-> | H3]; [ring|]. destruct (M01 b i) as [-> | H4]; [ring|]. exfalso. apply Hne. apply (Min c i Hc) in H3. apply (Min b i Hb) in H4. eapply in_block_unique; eauto. }
    split.
    + specialize (P (mem b)). rewrite QA in P. rewrite (S_single B _ b Hb) in P.
      * rewrite (S_ext N (fun i => mem b i * mem b i) (mem b)) in P by (intros i _; destruct (M01 b i) as [-> | ->]; ring).
        rewrite (S_ext N (fun i => mem b i * (mem b i * mem b i)) (mem b)) in P by (intros i _; destruct (M01 b i) as [-> | ->]; ring). rewrite Cnt in P by auto. fold m rho in P. rewrite Mm.
        apply (Rmult_le_reg_r (INR m - 1)); [lra|]. unfold Rdiv. rewrite Rmult_assoc, Rinv_l by lra.
        assert (0 <= INR m * (1 + rho * (INR m - 1))) by lra. assert (0 <= 1 + rho * (INR m - 1)) by (apply (Rmult_le_reg_l (INR m)); lra). lra.
      * intros c Hc Hne. rewrite (S_ext N _ (fun _ => 0)) by (intros; apply Dis; auto). rewrite (S_ext N (fun i => mem c i * (mem b i * mem b i)) (fun _ => 0)) by (intros; rewrite <- Rmult_assoc, Dis by auto; ring). rewrite S_zero. ring.
    + set (lo := list_sum (firstn b sizes)).
      assert (Nx : list_sum (firstn (S b) sizes) = (lo + m)%nat).
      { unfold lo, m, B in *. clear -Hb. revert b Hb. induction sizes as [|x l IH]; intros b Hb; [cbn in Hb; lia|]. destruct b as [|b]; [cbn; lia|].
        change (firstn (S (S b)) (x :: l)) with (x :: firstn (S b) l). change (firstn (S b) (x :: l)) with (x :: firstn b l). cbn [list_sum fold_right nth]. specialize (IH b ltac:(cbn in Hb; lia)). unfold list_sum in *. lia. }
      assert (I0 : in_block sizes b lo) by (split; [auto|unfold lo in *; lia]). assert (I1 : in_block sizes b (S lo)) by (split; [auto|unfold lo in *; lia]).
      assert (LN : (lo + m <= N)%nat) by (rewrite <- Nx; unfold N; rewrite <- (firstn_skipn (S b) sizes) at 2; rewrite list_sum_app; lia).
      destruct (psd_minor N A lo (S lo) (conj SyA P) ltac:(lia) ltac:(lia)) as [_ Mi]. rewrite !DA in Mi by lia.
      pose proof (HA lo (S lo) ltac:(lia) ltac:(lia)) as HV. rewrite (Hs b lo (S lo) I0 I1) in HV by lia.
      rewrite (nth_indep _ NaN (Fin 0)) in HV by (rewrite map_length; rewrite <- HL; auto). rewrite map_nth in HV. injection HV as HV. fold rho in HV. rewrite <- HV in Mi. nra.
  - intros H. split; [|exact DA]. split; [exact SyA|]. intros x. rewrite QA. apply S_nonneg. intros b Hb.
    pose proof (S_le_square N (mem b) x (M01 b)) as CS. rewrite Cnt in CS by auto.
    set (S1 := sumn N (fun i => mem b i * x i)) in *. set (Q := sumn N (fun i => mem b i * (x i * x i))) in *. set (rho := nth b rhos 0) in *. set (m := nth b sizes 0%nat) in *.
    assert (Qn : 0 <= Q) by (apply S_nonneg; intros i _; destruct (M01 b i) as [-> | ->]; [lra|]; pose proof (Rle_0_sqr (x i)); unfold Rsqr in *; lra).
    assert (S1n : 0 <= S1 * S1) by (pose proof (Rle_0_sqr S1); unfold Rsqr in *; lra).
    destruct (Nat.le_gt_cases 2 m) as [Hm|Hm].
    + destruct (H b Hb Hm) as [L U]. fold rho in L, U. destruct (Rle_dec 0 rho) as [|Hn]; [nra|].
      assert (Mm : INR (m - 1) = INR m - 1) by (rewrite minus_INR by lia; reflexivity). fold m in L. rewrite Mm in L.
      assert (M2 : 2 <= INR m) by (change 2 with (INR 2); apply le_INR; auto).
      assert (L' : -1 <= rho * (INR m - 1)) by (apply (Rmult_le_compat_r (INR m - 1)) in L; [|lra]; unfold Rdiv in L; rewrite Rmult_assoc, Rinv_l in L by lra; lra).
      assert (rho * (INR m * Q) <= rho * (S1 * S1)) by (apply Rmult_le_compat_neg_l; lra).
      assert (0 <= (1 + rho * (INR m - 1)) * Q) by (apply Rmult_le_pos; lra). lra.
    + (* at most one asset: S1^2 = Q *)
      assert (E1 : S1 * S1 = Q).
      { destruct (Nat.eq_dec m 0) as [Z|NZ].
        - rewrite Z in CS. cbn [INR] in CS. assert (Q = 0); [|nra].
          assert (T0 : forall i, (i < N)%nat -> mem b i = 0).
          { intros i Hi. assert (mem b i <= sumn N (mem b)) by (apply (S_ge_term N (mem b) i Hi); intros k _; destruct (M01 b k); lra). rewrite (Cnt b Hb) in H0. fold m in H0. rewrite Z in H0. cbn in H0. destruct (M01 b i); lra. }
          unfold Q. rewrite (S_ext N _ (fun _ => 0)) by (intros i Hi; rewrite T0 by auto; ring). apply S_zero.
        - assert (m = 1)%nat by lia. (* the single member *)
          assert (Ex : exists k, (k < N)%nat /\ mem b k = 1).
          { destruct (Exists_dec (fun k => mem b k = 1) (seq 0 N)) as [He|He]; [intros k; destruct (Req_EM_T (mem b k) 1); auto| |].
            - apply Exists_exists in He as (k & Hk & Hk'). apply in_seq in Hk. exists k. split; [lia|auto].
            - exfalso. pose proof (Cnt b Hb) as Cb. fold m in Cb. rewrite H0 in Cb. cbn in Cb. rewrite (S_ext N _ (fun _ => 0)) in Cb; [rewrite S_zero in Cb; lra|].
              intros k Hk. destruct (M01 b k) as [|Hk']; [auto|]. exfalso. apply He. apply Exists_exists. exists k. split; [apply in_seq; lia|auto]. }
          destruct Ex as (k & Hk & Hk1).
          assert (Oth : forall i, (i < N)%nat -> i <> k -> mem b i = 0).
          { intros i Hi Hne. destruct (M01 b i) as [|Hi1]; [auto|]. exfalso. pose proof (Cnt b Hb) as Cb. fold m in Cb. rewrite H0 in Cb. cbn in Cb.
            rewrite (S_ext N (mem b) (fun j => (if Nat.eqb j i then mem b j else 0) + (if Nat.eqb j i then 0 else mem b j))) in Cb by (intros j _; destruct (Nat.eqb j i); ring).
            rewrite S_plus, (S_single N _ i Hi) in Cb by (intros j _ Hj; rewrite (proj2 (Nat.eqb_neq j i)) by auto; reflexivity). rewrite Nat.eqb_refl, Hi1 in Cb.
            assert (1 <= sumn N (fun j => if Nat.eqb j i then 0 else mem b j)).
            { replace 1 with ((fun j => if Nat.eqb j i then 0 else mem b j) k) by (cbv beta; rewrite (proj2 (Nat.eqb_neq k i)) by auto; auto). apply (S_ge_term N (fun j => if Nat.eqb j i then 0 else mem b j) k Hk). intros j _. destruct (Nat.eqb j i); [lra|]. destruct (M01 b j); lra. }
            lra. }
          unfold S1, Q. rewrite !(S_single N _ k Hk) by (intros i Hi Hne; rewrite Oth by auto; ring). rewrite Hk1. ring. }
      rewrite E1. nra.
Qed.
Print Assumptions C48_valid_iff.

(** the documented example: blocks of 3, 7 and 12 assets with correlations 0.7, 0.3 and -0.2 - the last is below -1/11, so the
    documented example is not a correlation matrix *)
Example C48_documented_example_invalid : exists a A, cor_block_diagonal [3%nat; 7%nat; 12%nat] (map Fin [7/10; 3/10; -(2/10)]) = Ok a
  /\ holds_matrix a 22 A /\ ~ correlation_matrix 22 A.
Proof.
  destruct (C48_valid_iff [3%nat; 7%nat; 12%nat] [7/10; 3/10; -(2/10)] eq_refl) as (a & A & E & HA & H). exists a, A. split; [exact E|]. split; [exact HA|].
  intros C. pose proof (proj1 H C) as C1. specialize (C1 2%nat ltac:(cbn; lia) ltac:(cbn; lia)). cbn in C1. lra.
Qed.
(** the default arguments do give a correlation matrix *)
Example C48_defaults_valid : exists a A, cor_block_diagonal [10%nat; 10%nat; 20%nat; 24%nat; 64%nat] (map Fin [5/10; 2/10; 3/10; 5/10; 3/10]) = Ok a
  /\ holds_matrix a 128 A /\ correlation_matrix 128 A.
Proof.
  destruct (C48_valid_iff [10%nat; 10%nat; 20%nat; 24%nat; 64%nat] [5/10; 2/10; 3/10; 5/10; 3/10] eq_refl) as (a & A & E & HA & H). exists a, A. split; [exact E|]. split; [exact HA|].
  apply (proj2 H). intros b Hb H2.
  assert (P : forall m : nat, -1 / INR (m - 1) <= 0).
  { intros m. unfold Rdiv. destruct (m - 1)%nat as [|k]; [cbn [INR]; rewrite Rinv_0; lra|]. pose proof (Rinv_0_lt_compat (INR (S k)) ltac:(apply lt_0_INR; lia)). lra. }
  destruct b as [|[|[|[|[|b]]]]]; cbn [nth]; try (pose proof (P 10%nat); pose proof (P 20%nat); pose proof (P 24%nat); pose proof (P 64%nat); lra). cbn in Hb. lia.
Qed.
