(** Properties C38, C39, C40, C79: correlation distances. *)
From Coq Require Import Reals Lra Psatz String List Arith Bool Lia.
From Verif Require Import Base Num Sim_Model Dist_Model Dist_Spec Dist_Proofs.
Import ListNotations.
Open Scope R_scope.

(** equal up to the tolerance of np.allclose; infinities only match themselves, NaN nothing *)
Definition near (a b : num) : Prop :=
  (exists x y, a = Fin x /\ b = Fin y /\ Rabs (x - y) <= 1 / 10 ^ 8 + 1 / 10 ^ 5 * Rabs y)
  \/ (a = b /\ (a = PInf \/ a = NInf)).
(** what the array functions accept: square, symmetric up to the tolerance, exact ones on the diagonal *)
Definition correlation_like (a : arr2) : Prop :=
  nrow a = ncol a
  /\ (forall i j, (i < nrow a)%nat -> (j < nrow a)%nat -> near (at2 a i j) (at2 a j i))
  /\ (forall i, (i < nrow a)%nat -> at2 a i i = Fin 1).

Lemma isclose_near : forall a b, isclose a b = true <-> near a b.
Proof.
  intros a b. unfold near, isclose. destruct a as [x| | |], b as [y| | |]; cbn [neqb];
    try (split; [discriminate|intros [(u & v & H1 & H2 & _)|[H1 [H2|H2]]]; discriminate]);
    try (split; [intros _; right; auto|reflexivity]).
  rewrite rleb_true. split; [intros H; left; exists x, y; auto|]. intros [(u & v & H1 & H2 & H)|[_ [H|H]]]; try discriminate.
  injection H1 as ->. injection H2 as ->. exact H.
Qed.
Lemma all_upto_spec : forall n f, all_upto n f = true <-> forall i, (i < n)%nat -> f i = true.
Proof.
  intros n f. unfold all_upto. rewrite forallb_forall. split; intros H i Hi; apply H; [apply in_seq; lia|apply in_seq in Hi; lia].
Qed.
Lemma neqb_one : forall v, neqb v (Fin 1) = true <-> v = Fin 1.
Proof. intros [r| | |]; cbn [neqb]; try (split; [discriminate|congruence]). rewrite reqb_true. split; congruence. Qed.
Lemma validate_spec : forall a, (validate_corr (OArr2 a) = Ok tt <-> correlation_like a)
  /\ (validate_corr (OArr2 a) = Ok tt \/ validate_corr (OArr2 a) = Raise AssertionError).
Proof.
  intros a. unfold validate_corr, correlation_like, close_to_transpose.
  destruct (Nat.eqb_spec (nrow a) (ncol a)) as [E|E]; cbn [negb]; [|split; [split; [discriminate|tauto]|auto]].
  rewrite <- E. destruct (all_upto (nrow a) (fun i => all_upto (nrow a) (fun j => isclose (at2 a i j) (at2 a j i)))) eqn:C; cbn [negb].
  - destruct (all_upto (nrow a) (fun i => neqb (at2 a i i) (Fin 1))) eqn:D; cbn [negb]; (split; [|auto]).
    + split; [intros _|auto]. split; [auto|]. split.
      * intros i j Hi Hj. rewrite all_upto_spec in C. specialize (C i Hi). cbn beta in C. rewrite all_upto_spec in C. apply isclose_near. auto.
      * intros i Hi. rewrite all_upto_spec in D. apply neqb_one. auto.
    + split; [discriminate|]. intros (_ & _ & H). rewrite <- not_true_iff_false in D. exfalso. apply D. apply all_upto_spec. intros i Hi. apply neqb_one. auto.
  - split; [|auto]. split; [discriminate|]. intros (_ & H & _). rewrite <- not_true_iff_false in C. exfalso. apply C.
    apply all_upto_spec. intros i Hi. apply all_upto_spec. intros j Hj. apply isclose_near. auto.
Qed.

(* ------------------------------------------------------------------ *)
(** ** C38 Range, symmetry, diagonal, acceptance *)

(** Arrays are converted exactly when they look like a correlation matrix; otherwise the call fails with AssertionError. *)
Theorem C38_accepts_exactly : forall m a, known_method m ->
  (correlation_like a <-> exists r, convert m (OArr2 a) = Ok r)
  /\ (~ correlation_like a -> convert m (OArr2 a) = Raise AssertionError).
Proof.
  intros m a Hm. destruct (validate_spec a) as [V1 V2]. unfold convert, conversion_all. rewrite (proj2 (known_in m) Hm).
  destruct V2 as [E|E]; rewrite E in *; cbn [bind].
  - split; [|tauto]. split; [eexists; reflexivity|tauto].
  - split; [|reflexivity]. split; [intros H; apply V1 in H; discriminate|intros [r H]; discriminate].
Qed.
Print Assumptions C38_accepts_exactly.

Lemma near_not_nan : forall a b, near a b -> a <> NaN.
Proof. intros a b [(x & y & -> & _)|[_ [-> | ->]]]; discriminate. Qed.
Lemma nclip_unit : forall c, c <> NaN -> exists r, nclip (Fin (-1)) (Fin 1) c = Fin r /\ -1 <= r <= 1 /\ forall q, c = Fin q -> r = clamp q.
Proof.
  intros [q| | |] H; [|congruence| |].
  - exists (clamp q). split; [apply nclip_any|]. split; [apply clamp_bounds|]. congruence.
  - exists 1. split; [|split; [lra|discriminate]]. reflexivity.
  - exists (-1). split; [|split; [lra|discriminate]]. unfold nclip. cbn [is_nan nltb]. rewrite (proj2 (rltb_false 1 (-1))) by lra. reflexivity.
Qed.
Lemma nclip01 : forall m r, -1 <= r <= 1 -> nclip (Fin 0) (Fin 1) (Fin (formula m r)) = Fin (formula m r).
Proof. intros. apply nclip_in. apply formula_bounds. auto. Qed.

(** Result of an accepted matrix: same shape, zero diagonal, entries in [0,1] given by the documented formula of the
    clipped correlation, and symmetric where the input is. *)
Theorem C38_matrix : forall m a r, known_method m -> convert m (OArr2 a) = Ok r ->
  exists d, r = OArr2 d /\ nrow d = nrow a /\ ncol d = nrow a
  /\ (forall i, (i < nrow a)%nat -> at2 d i i = Fin 0)
  /\ (forall i j, (i < nrow a)%nat -> (j < nrow a)%nat -> i <> j ->
        exists v, at2 d i j = Fin v /\ 0 <= v <= 1
        /\ (forall c, at2 a i j = Fin c -> v = formula m (clamp c))
        /\ (at2 a i j = at2 a j i -> at2 d i j = at2 d j i)).
Proof.
  intros m a r Hm H. assert (Ha : correlation_like a) by (apply (C38_accepts_exactly m a Hm); eauto).
  destruct (validate_spec a) as [V _]. unfold convert, conversion_all in H. rewrite (proj2 V Ha), (proj2 (known_in m) Hm) in H. cbn [bind] in H.
  injection H as <-. eexists. split; [reflexivity|]. destruct Ha as (Hsq & Hnear & Hdiag).
  unfold fill_diag, amap. cbn [nrow ncol at2]. split; [reflexivity|]. split; [auto|]. split.
  - intros i Hi. rewrite Nat.eqb_refl. reflexivity.
  - intros i j Hi Hj Hij. rewrite (proj2 (Nat.eqb_neq i j) Hij), (proj2 (Nat.eqb_neq j i) (not_eq_sym Hij)).
    destruct (nclip_unit (at2 a i j) (near_not_nan _ _ (Hnear i j Hi Hj))) as (q & Eq & Bq & Hq).
    exists (formula m q). rewrite Eq, conversion_real, nclip01 by auto. split; [reflexivity|]. split; [apply formula_bounds; auto|].
    split; [intros c Hc; rewrite (Hq c Hc); reflexivity|]. intros Es. rewrite <- Es, Eq, conversion_real, nclip01 by auto. reflexivity.
Qed.
Print Assumptions C38_matrix.

(** Scalars: the formula of the clipped correlation; NaN stays NaN. *)
Theorem C38_scalar : forall m, known_method m ->
  (forall c, convert m (OScalar (Fin c)) = Ok (OScalar (Fin (formula m (clamp c)))) /\ 0 <= formula m (clamp c) <= 1)
  /\ convert m (OScalar NaN) = Ok (OScalar NaN).
Proof.
  intros m Hm. split.
  - intros c. pose proof (clamp_bounds c) as B. split; [|apply formula_bounds; auto]. unfold convert. rewrite nclip_any, conversion_real by auto. cbn [bind].
    rewrite nclip01 by auto. reflexivity.
  - unfold convert. replace (nclip (Fin (-1)) (Fin 1) NaN) with NaN by reflexivity. rewrite conversion_nan by auto. reflexivity.
Qed.
Print Assumptions C38_scalar.

(** Direction: the angular distance strictly falls with the correlation, the other two with its absolute value. *)
Theorem C38_monotone : forall c c', -1 <= c <= 1 -> -1 <= c' <= 1 ->
  (c < c' <-> exists d d', corr_to_angular_dist (OScalar (Fin c)) = Ok (OScalar (Fin d))
                 /\ corr_to_angular_dist (OScalar (Fin c')) = Ok (OScalar (Fin d')) /\ d' < d)
  /\ (forall m, m = "abs_angular"%string \/ m = "squared_angular"%string ->
       (Rabs c < Rabs c' <-> exists d d', convert m (OScalar (Fin c)) = Ok (OScalar (Fin d))
                 /\ convert m (OScalar (Fin c')) = Ok (OScalar (Fin d')) /\ d' < d)).
Proof.
  intros c c' Hc Hc'.
  assert (K : forall m f, known_method m -> (forall r, -1 <= r <= 1 -> formula m r = sqrt (f r) /\ 0 <= f r) ->
    (f c' < f c <-> exists d d', convert m (OScalar (Fin c)) = Ok (OScalar (Fin d)) /\ convert m (OScalar (Fin c')) = Ok (OScalar (Fin d')) /\ d' < d)).
  { intros m f Hm Hf. destruct (C38_scalar m Hm) as [S _]. destruct (S c) as [E1 _]. destruct (S c') as [E2 _]. rewrite E1, E2.
    rewrite !clamp_id by auto. destruct (Hf c Hc) as [F1 P1]. destruct (Hf c' Hc') as [F2 P2]. rewrite F1, F2. split.
    - intros H. exists (sqrt (f c)), (sqrt (f c')). split; [auto|]. split; [auto|]. apply sqrt_lt_1_alt. lra.
    - intros (d & d' & H1 & H2 & H3). assert (d = sqrt (f c)) by congruence. assert (d' = sqrt (f c')) by congruence. subst d d'.
      apply sqrt_lt_0_alt in H3. exact H3. }
  split.
  - unfold corr_to_angular_dist. rewrite <- (K "angular"%string (fun r => (1 - r) / 2)).
    + split; intros; lra.
    + left; auto.
    + intros r Hr. split; [reflexivity|lra].
  - intros m [-> | ->].
    + rewrite <- (K "abs_angular"%string (fun r => 1 - Rabs r)); [split; intros; lra|right; left; auto|].
      intros r Hr. split; [reflexivity|]. apply rabs_unit in Hr. lra.
    + rewrite <- (K "squared_angular"%string (fun r => 1 - r ^ 2)); [|right; right; auto|intros r Hr; split; [reflexivity|nra]].
      rewrite <- !Rsqr_pow2. split; intros H.
      * apply Rsqr_lt_abs_1 in H. lra.
      * assert (Rsqr c < Rsqr c') by lra. apply Rsqr_lt_abs_0. auto.
Qed.
Print Assumptions C38_monotone.

(** A DataFrame is never rejected; its entries, the diagonal included, are the formula of the clipped entry. *)
Theorem C38_frames_not_checked : forall m names a, known_method m ->
  exists d, convert m (OFrame names a) = Ok (OFrame names d) /\ nrow d = nrow a /\ ncol d = ncol a
  /\ forall i j, (forall c, at2 a i j = Fin c -> at2 d i j = Fin (formula m (clamp c))) /\ (at2 a i j = NaN -> at2 d i j = NaN).
Proof.
  intros m names a Hm. unfold convert, conversion_all. rewrite (proj2 (known_in m) Hm). cbn [bind]. eexists. split; [reflexivity|].
  split; [reflexivity|]. split; [reflexivity|]. intros i j. unfold amap. cbn [at2]. split.
  - intros c ->. pose proof (clamp_bounds c). rewrite nclip_any, conversion_real, nclip01 by auto. reflexivity.
  - intros ->. replace (nclip (Fin (-1)) (Fin 1) NaN) with NaN by reflexivity. rewrite conversion_nan by auto. reflexivity.
Qed.
Print Assumptions C38_frames_not_checked.

(** corr_to_dist: inputs other than frames and arrays of two dimensions with at least two columns are a ValueError, unknown
    method names an AssertionError, everything else is the conversion. *)
Theorem C38_corr_to_dist : forall x m,
  let two_d := exists a, (x = OArr2 a \/ exists names, x = OFrame names a) /\ (2 <= ncol a)%nat in
  (two_d -> known_method m -> corr_to_dist x m = convert m x)
  /\ (two_d -> ~ known_method m -> corr_to_dist x m = Raise AssertionError)
  /\ (~ two_d -> corr_to_dist x m = Raise ValueError).
Proof.
  intros x m two_d. unfold corr_to_dist, dist_methods.
  assert (C : two_d -> check_2d x = Ok tt).
  { intros (a & [->|(names & ->)] & H); unfold check_2d; destruct (Nat.ltb_spec (ncol a) 2); try lia; reflexivity. }
  split; [|split].
  - intros H Hm. rewrite (C H), (proj2 (known_in m) Hm). reflexivity.
  - intros H Hm. rewrite (C H). destruct (existsb _ _) eqn:E; [exfalso; apply Hm; apply known_in; exact E|reflexivity].
  - intros H. destruct x as [c|l|a|n|l|names a|]; try reflexivity.
    + unfold check_2d. destruct (Nat.ltb_spec (ncol a) 2); [reflexivity|]. exfalso. apply H. exists a. auto.
    + unfold check_2d. destruct (Nat.ltb_spec (ncol a) 2); [reflexivity|]. exfalso. apply H. exists a. split; [right; exists names; auto|auto].
Qed.
Print Assumptions C38_corr_to_dist.

(** concrete: a 2 x 2 correlation matrix *)
Example C38_example : let a := mkArr 2 2 (fun i j => if Nat.eqb i j then Fin 1 else Fin (1 / 2)) in
  correlation_like a /\ exists d, corr_to_angular_dist (OArr2 a) = Ok (OArr2 d) /\ at2 d 0 1 = Fin (1 / 2).
Proof.
  intros a. assert (Ha : correlation_like a).
  { split; [reflexivity|]. split.
    - intros i j _ _. unfold a, near. cbn [at2]. rewrite (Nat.eqb_sym j i). left. destruct (Nat.eqb i j).
      + exists 1, 1. split; [auto|]. split; [auto|]. unfold Rminus. rewrite Rplus_opp_r, Rabs_R0, Rabs_R1. lra.
      + exists (1 / 2), (1 / 2). split; [auto|]. split; [auto|]. unfold Rminus. rewrite Rplus_opp_r, Rabs_R0. rewrite Rabs_right by lra. lra.
    - intros i _. unfold a. cbn [at2]. rewrite Nat.eqb_refl. reflexivity. }
  split; [exact Ha|]. assert (Hm : known_method "angular") by (left; auto). destruct (proj1 (proj1 (C38_accepts_exactly _ a Hm)) Ha) as (r & Er).
  destruct (C38_matrix _ a r Hm Er) as (d & -> & _ & _ & _ & Hoff). exists d. split; [exact Er|].
  destruct (Hoff 0%nat 1%nat ltac:(cbn; lia) ltac:(cbn; lia) ltac:(discriminate)) as (v & Ev & _ & Hv & _). rewrite Ev.
  rewrite (Hv (1 / 2) eq_refl), clamp_id by lra. unfold formula, angular. cbn [String.eqb Ascii.eqb Bool.eqb].
  replace ((1 - 1 / 2) / 2) with (1 / 2 * (1 / 2)) by field. rewrite sqrt_square by lra. reflexivity.
Qed.

(* ------------------------------------------------------------------ *)
(** ** C39 Triangle inequality on data *)

Lemma pair_real : forall m x y, known_method m -> length x = length y -> varies x -> varies y ->
  pair_distance m (map Fin x) (map Fin y) = Ok (Fin (formula m (pearson x y))).
Proof.
  intros m x y Hm Hl Hx Hy. unfold pair_distance. rewrite corrcoef_real by auto. cbn [bind].
  rewrite (proj1 (proj1 (C38_scalar m Hm) (pearson x y))). cbn [bind]. rewrite clamp_id by (apply pearson_bounds; auto). reflexivity.
Qed.

Theorem C39_triangle : forall m x y z, known_method m ->
  length x = length y -> length y = length z -> varies x -> varies y -> varies z ->
  exists dxy dyz dxz, pair_distance m (map Fin x) (map Fin y) = Ok (Fin dxy)
    /\ pair_distance m (map Fin y) (map Fin z) = Ok (Fin dyz)
    /\ pair_distance m (map Fin x) (map Fin z) = Ok (Fin dxz)
    /\ dxz <= dxy + dyz.
Proof.
  intros m x y z Hm Hxy Hyz Vx Vy Vz.
  exists (formula m (pearson x y)), (formula m (pearson y z)), (formula m (pearson x z)).
  rewrite !pair_real by (auto; congruence). split; [auto|]. split; [auto|]. split; [auto|].
  pose proof (pearson_bounds x y Hxy Vx Vy) as A. pose proof (pearson_bounds y z Hyz Vy Vz) as B. pose proof (pearson_bounds x z ltac:(congruence) Vx Vz) as C.
  rewrite (pearson_crl x y), (pearson_crl y z), (pearson_crl x z) in * by congruence.
  destruct (varies_pos x Vx) as [Px _]. destruct (varies_pos y Vy) as [Py _]. destruct (varies_pos z Vz) as [Pz _].
  rewrite inner_dot in *. rewrite <- Hxy in *. rewrite <- Hyz, <- ?Hxy in *.
  pose proof (gram3 (length x) (centred x) (centred y) (centred z) Px Py Pz) as G. cbv zeta in G.
  unfold formula. destruct Hm as [->|[->| ->]]; cbn [String.eqb Ascii.eqb Bool.eqb];
    [apply angular_triangle|apply abs_angular_triangle|apply squared_angular_triangle]; auto.
Qed.
Print Assumptions C39_triangle.

Example C39_example : varies [1; 2; 4] /\ varies [3; 1; 2] /\ varies [0; 0; 5].
Proof. unfold varies. split; [exists 1, 2|split; [exists 3, 1|exists 0, 5]]; cbn; repeat split; auto; lra. Qed.

(* ------------------------------------------------------------------ *)
(** ** C40 Affine invariance *)

Definition affine (k c : R) (x : list R) : list R := map (fun v => k * v + c) x.

Lemma rmean_affine : forall k c x, x <> [] -> rmean (affine k c x) = k * rmean x + c.
Proof.
  intros k c x Hx. unfold rmean, affine. rewrite map_length. rewrite (rsum_plus R (fun v => k * v) (fun _ => c)), rsum_scal, rsum_const, map_id.
  field. apply not_0_INR. destruct x; [congruence|discriminate].
Qed.
Lemma centred_affine : forall k c x i, (i < length x)%nat -> centred (affine k c x) i = k * centred x i.
Proof.
  intros k c x i Hi. unfold centred. rewrite rmean_affine by (destruct x; [cbn in Hi; lia|discriminate]).
  unfold affine. rewrite (nth_indep _ 0 (k * 0 + c)) by (rewrite map_length; auto). rewrite (map_nth (fun v => k * v + c)). ring.
Qed.
Lemma inner_affine : forall k c x y, length x = length y -> inner (affine k c x) y = k * inner x y.
Proof.
  intros k c x y Hl. unfold inner. replace (length (affine k c x)) with (length x) by (unfold affine; rewrite map_length; reflexivity).
  rewrite <- rsum_scal. apply rsum_ext. intros i Hi. apply in_seq in Hi. rewrite centred_affine by lia. ring.
Qed.
Lemma affine_length : forall k c x, length (affine k c x) = length x.
Proof. intros. unfold affine. apply map_length. Qed.
Lemma inner_affine_self : forall k c x, inner (affine k c x) (affine k c x) = k * k * inner x x.
Proof.
  intros. rewrite inner_affine by (rewrite affine_length; reflexivity). rewrite inner_sym by (rewrite affine_length; reflexivity).
  rewrite inner_affine by reflexivity. ring.
Qed.
Lemma varies_affine : forall k c x, k <> 0 -> varies x -> varies (affine k c x).
Proof.
  intros k c x Hk (a & b & Ha & Hb & Hab). exists (k * a + c), (k * b + c). unfold affine.
  split; [apply in_map_iff; eauto|]. split; [apply in_map_iff; eauto|]. intros E. apply Hab. apply Rmult_eq_reg_l with k; [lra|auto].
Qed.
Lemma pearson_sym : forall x y, length x = length y -> pearson x y = pearson y x.
Proof. intros x y H. unfold pearson. rewrite (inner_sym x y) by auto. rewrite Rmult_comm. reflexivity. Qed.
Lemma pearson_affine : forall k c x y, k <> 0 -> length x = length y -> varies x -> varies y ->
  pearson (affine k c x) y = (if Rlt_dec 0 k then 1 else -1) * pearson x y.
Proof.
  intros k c x y Hk Hl Hx Hy. destruct (varies_pos x Hx) as [Px _]. destruct (varies_pos y Hy) as [Py _].
  unfold pearson. rewrite inner_affine_self, inner_affine by auto. rewrite sqrt_mult by nra.
  replace (sqrt (k * k)) with (Rabs k) by (symmetry; apply sqrt_Rsqr_abs).
  assert (0 < sqrt (inner x x)) by (apply sqrt_lt_R0; auto). assert (0 < sqrt (inner y y)) by (apply sqrt_lt_R0; auto).
  unfold Rabs. destruct (Rcase_abs k), (Rlt_dec 0 k); try lra; field; repeat split; lra.
Qed.
Lemma pearson_self : forall x, varies x -> pearson x x = 1.
Proof. intros x Hx. destruct (varies_pos x Hx) as [P _]. unfold pearson. rewrite sqrt_sqrt by lra. field. lra. Qed.

(** Shifting and rescaling an argument by a positive factor changes nothing; for the absolute and squared versions by any
    non-zero factor. *)
Theorem C40_affine_invariance : forall m k c x y, known_method m -> length x = length y -> varies x -> varies y ->
  0 < k \/ (k <> 0 /\ m <> "angular"%string) ->
  pair_distance m (map Fin (affine k c x)) (map Fin y) = pair_distance m (map Fin x) (map Fin y).
Proof.
  intros m k c x y Hm Hl Hx Hy Hk. assert (k <> 0) by (destruct Hk as [|[]]; lra).
  rewrite !pair_real by (auto; try (apply varies_affine; auto); try (rewrite affine_length; auto)). do 2 f_equal.
  rewrite pearson_affine by auto. destruct (Rlt_dec 0 k) as [H0|H0]; [rewrite Rmult_1_l; reflexivity|].
  destruct Hk as [Hk|[_ Hk]]; [lra|]. unfold formula. destruct Hm as [->|[->| ->]]; [congruence| |]; cbn [String.eqb Ascii.eqb Bool.eqb].
  - unfold abs_angular. rewrite Rabs_mult, Rabs_left by lra. do 2 f_equal. lra.
  - unfold squared_angular. do 2 f_equal. ring.
Qed.
Print Assumptions C40_affine_invariance.

(** With a negative factor the two angular distances are complementary: their squares add up to one. *)
Theorem C40_angular_reflection : forall k c x y, length x = length y -> varies x -> varies y -> k < 0 ->
  exists d d', pair_angular_distance (map Fin (affine k c x)) (map Fin y) = Ok (Fin d)
    /\ pair_angular_distance (map Fin x) (map Fin y) = Ok (Fin d') /\ d * d + d' * d' = 1.
Proof.
  intros k c x y Hl Hx Hy Hk. assert (Hm : known_method "angular") by (left; auto). unfold pair_angular_distance.
  rewrite !pair_real by (auto; try (apply varies_affine; auto; lra); try (rewrite affine_length; auto)).
  eexists _, _. split; [reflexivity|]. split; [reflexivity|]. rewrite pearson_affine by (auto; lra). destruct (Rlt_dec 0 k); [lra|].
  pose proof (pearson_bounds x y Hl Hx Hy). unfold formula, angular. cbn [String.eqb Ascii.eqb Bool.eqb]. rewrite !sqrt_sqrt by lra. field.
Qed.
Print Assumptions C40_angular_reflection.

Lemma corrcoef_constant : forall u v, length u = length v -> (2 <= length u)%nat -> ~ varies u \/ ~ varies v ->
  corrcoef (map Fin u) (map Fin v) = Ok NaN.
Proof.
  intros u v Hl Hn Hc.
  unfold corrcoef. rewrite !map_length, (proj2 (Nat.eqb_eq _ _) Hl). cbn [negb]. rewrite !ncov_real by (auto; lia).
  assert (Hk : 0 < INR (length u - 1)) by (apply lt_0_INR; lia). rewrite <- Hl. set (k := INR (length u - 1)) in *.
  assert (Pu : 0 <= inner u u) by (rewrite inner_dot; apply dot_nonneg). assert (Pv : 0 <= inner v v) by (rewrite inner_dot; apply dot_nonneg).
  assert (D0 : forall r, 0 <= r -> 0 <= r / k) by (intros r Hr; apply Rmult_le_pos; [auto|apply Rlt_le, Rinv_0_lt_compat; auto]).
  rewrite !nsqrt_fin by auto.
  assert (Z : inner u v = 0).
  { assert (CS : inner u v * inner u v <= inner u u * inner v v) by (rewrite !inner_dot, <- Hl; apply cauchy_schwarz).
    destruct Hc as [Hc|Hc]; apply not_varies_zero in Hc; rewrite Hc in CS; nra. }
  rewrite Z. replace (0 / k) with 0 by (field; lra).
  assert (N0 : ndiv (Fin 0) (Fin 0) = NaN).
  { unfold ndiv. rewrite (proj2 (reqb_true 0 0)) by reflexivity. unfold sgn_inf. rewrite (proj2 (rltb_false 0 0)) by lra. reflexivity. }
  assert (G : forall s, ndiv (Fin 0) (Fin s) = NaN \/ ndiv (Fin 0) (Fin s) = Fin 0).
  { intros s. unfold ndiv. destruct (reqb s 0) eqn:Es; [left|right]. - unfold sgn_inf. rewrite (proj2 (rltb_false 0 0)) by lra. reflexivity.
    - apply reqb_false in Es. f_equal. field. auto. }
  assert (F : ndiv (ndiv (Fin 0) (Fin (sqrt (inner u u / k)))) (Fin (sqrt (inner v v / k))) = NaN).
  { destruct Hc as [Hc|Hc]; apply not_varies_zero in Hc; rewrite Hc.
    - replace (0 / k) with 0 by (field; lra). rewrite sqrt_0, N0. reflexivity.
    - replace (0 / k) with 0 by (field; lra). rewrite sqrt_0. destruct (G (sqrt (inner u u / k))) as [-> | ->]; [reflexivity|exact N0]. }
  rewrite F. reflexivity.
Qed.
(** Symmetry; distance zero to a positive affine image of itself (any non-zero factor for the other two); a constant vector
    gives NaN; vectors of different lengths are rejected. *)
Theorem C40_symmetric_and_zero : forall m x y, known_method m ->
  (length x = length y -> varies x -> varies y -> pair_distance m (map Fin x) (map Fin y) = pair_distance m (map Fin y) (map Fin x))
  /\ (forall k c, varies x -> 0 < k \/ (k <> 0 /\ m <> "angular"%string) -> pair_distance m (map Fin (affine k c x)) (map Fin x) = Ok (Fin 0)).
Proof.
  intros m x y Hm. split.
  - intros Hl Hx Hy. rewrite !pair_real by auto. rewrite pearson_sym by auto. reflexivity.
  - intros k c Hx Hk. rewrite C40_affine_invariance by auto. rewrite pair_real by auto. rewrite pearson_self by auto. do 2 f_equal.
    unfold formula. destruct Hm as [->|[->| ->]]; cbn [String.eqb Ascii.eqb Bool.eqb].
    + unfold angular. replace ((1 - 1) / 2) with 0 by field. apply sqrt_0.
    + unfold abs_angular. rewrite Rabs_R1, Rminus_diag_eq by reflexivity. apply sqrt_0.
    + unfold squared_angular. replace (1 - 1 ^ 2) with 0 by ring. apply sqrt_0.
Qed.
Print Assumptions C40_symmetric_and_zero.

Theorem C40_degenerate : forall m x y, known_method m ->
  (length x <> length y -> pair_distance m x y = Raise ValueError)
  /\ (forall u v, x = map Fin u -> y = map Fin v -> length u = length v -> (2 <= length u)%nat -> ~ varies u \/ ~ varies v ->
        pair_distance m x y = Ok NaN).
Proof.
  intros m x y Hm. split.
  - intros H. unfold pair_distance, corrcoef. rewrite (proj2 (Nat.eqb_neq _ _) H). reflexivity.
  - intros u v -> -> Hl Hn Hc.
    unfold pair_distance. rewrite (corrcoef_constant u v Hl Hn Hc). cbn [bind]. rewrite (proj2 (C38_scalar m Hm)). reflexivity.
Qed.
Print Assumptions C40_degenerate.

Example C40_example : pair_distance "angular" (map Fin (affine 3 7 [1; 2; 4])) (map Fin [1; 2; 4]) = Ok (Fin 0).
Proof. apply (C40_symmetric_and_zero "angular" [1; 2; 4] []); [left; auto| |left; lra]. apply C39_example. Qed.

(* ------------------------------------------------------------------ *)
(** ** C79 Distance matrix of a data set *)

(** column j of the data, as real numbers *)
Definition real_data (a : arr2) (x : nat -> list R) : Prop :=
  (2 <= ncol a)%nat /\ forall j, (j < ncol a)%nat -> length (x j) = nrow a /\ col a j = map Fin (x j).

Lemma complete_fin : forall x y, complete (map Fin x) (map Fin y) = combine (map Fin x) (map Fin y).
Proof.
  intros x y. unfold complete. rewrite combine_map2. induction (combine x y) as [|p l IH]; [reflexivity|]. cbn [map filter fst snd is_fin andb]. f_equal. exact IH.
Qed.
Lemma split_combine : forall A B (x : list A) (y : list B), length x = length y -> map fst (combine x y) = x /\ map snd (combine x y) = y.
Proof.
  induction x as [|a x IH]; intros [|b y] H; try discriminate; [split; reflexivity|]. injection H as H. destruct (IH y H) as [E1 E2].
  cbn. rewrite E1, E2. split; reflexivity.
Qed.
Lemma pandas_pearson_real : forall x y, length x = length y -> (1 <= length x)%nat ->
  (varies x /\ varies y -> pandas_pearson (map Fin x) (map Fin y) = Fin (pearson x y))
  /\ (~ varies x \/ ~ varies y -> pandas_pearson (map Fin x) (map Fin y) = NaN).
Proof.
  intros x y Hl Hn. unfold pandas_pearson. cbv zeta. rewrite complete_fin.
  destruct (split_combine _ _ (map Fin x) (map Fin y)) as [E1 E2]; [rewrite !map_length; auto|]. rewrite E1, E2.
  rewrite combine_length, !map_length, Hl, Nat.min_id. destruct (Nat.ltb_spec (length y) 1); [lia|].
  rewrite !dev_real by lia. cbn [nmul].
  assert (Pu : 0 <= inner x x) by (rewrite inner_dot; apply dot_nonneg). assert (Pv : 0 <= inner y y) by (rewrite inner_dot; apply dot_nonneg).
  rewrite nsqrt_fin by nra. cbn [neqb]. split.
  - intros [Vx Vy]. destruct (varies_pos x Vx) as [Qx _]. destruct (varies_pos y Vy) as [Qy _].
    rewrite sqrt_mult by lra. assert (0 < sqrt (inner x x)) by (apply sqrt_lt_R0; auto). assert (0 < sqrt (inner y y)) by (apply sqrt_lt_R0; auto).
    assert (Hne : sqrt (inner x x) * sqrt (inner y y) <> 0) by nra.
    rewrite (proj2 (reqb_false _ _) Hne). rewrite ndiv_fin by auto. fold (pearson x y). apply nclip_in. apply pearson_bounds; auto.
  - intros Hc. replace (inner x x * inner y y) with 0; [rewrite sqrt_0, (proj2 (reqb_true 0 0) eq_refl); reflexivity|].
    destruct Hc as [Hc|Hc]; apply not_varies_zero in Hc; rewrite Hc; ring.
Qed.
Lemma formula_one : forall m, known_method m -> formula m 1 = 0.
Proof.
  intros m [->|[->| ->]]; unfold formula; cbn [String.eqb Ascii.eqb Bool.eqb].
  - unfold angular. replace ((1 - 1) / 2) with 0 by field. apply sqrt_0.
  - unfold abs_angular. rewrite Rabs_R1, Rminus_diag_eq by reflexivity. apply sqrt_0.
  - unfold squared_angular. replace (1 - 1 ^ 2) with 0 by ring. apply sqrt_0.
Qed.

(** Complete data without constant columns: array and DataFrame give the same matrix, whose (i, j) entry is the pair distance
    of columns i and j. *)
Theorem C79_matrix_of_pair_distances : forall sp a x names m, real_data a x -> known_method m ->
  (forall j, (j < ncol a)%nat -> varies (x j)) ->
  exists d d', get_corr_distance_matrix sp (OArr2 a) "pearson" m None = Ok (OArr2 d)
  /\ get_corr_distance_matrix sp (OFrame names a) "pearson" m None = Ok (OFrame names d')
  /\ nrow d = ncol a /\ ncol d = ncol a /\ nrow d' = ncol a /\ ncol d' = ncol a
  /\ forall i j, (i < ncol a)%nat -> (j < ncol a)%nat ->
       pair_distance m (col a i) (col a j) = Ok (at2 d i j) /\ at2 d' i j = at2 d i j.
Proof.
  intros sp a x names m [H2 Hx] Hm Hv.
  assert (Hrow : (2 <= nrow a)%nat).
  { destruct (Hx 0%nat ltac:(lia)) as [Hl _]. rewrite <- Hl. apply varies_pos. apply Hv. lia. }
  assert (Hp : forall i j, (i < ncol a)%nat -> (j < ncol a)%nat -> pandas_pearson (col a i) (col a j) = Fin (pearson (x i) (x j))).
  { intros i j Hi Hj. destruct (Hx i Hi) as [Li Ei]. destruct (Hx j Hj) as [Lj Ej]. rewrite Ei, Ej. apply pandas_pearson_real; [congruence|lia|]. auto. }
  unfold get_corr_distance_matrix. cbn [existsb String.eqb Ascii.eqb Bool.eqb orb negb]. unfold calculate_correlation, check_2d.
  destruct (Nat.ltb_spec (ncol a) 2); [lia|]. cbn [bind String.eqb Ascii.eqb Bool.eqb].
  assert (T1 : exists b, (OArr2 (pearson_matrix a) = OArr2 b \/ exists n, OArr2 (pearson_matrix a) = OFrame n b) /\ (2 <= ncol b)%nat) by (exists (pearson_matrix a); split; [auto|exact H2]).
  assert (T2 : exists b, (OFrame names (pearson_matrix a) = OArr2 b \/ exists n, OFrame names (pearson_matrix a) = OFrame n b) /\ (2 <= ncol b)%nat).
  { exists (pearson_matrix a). split; [right; exists names; auto|exact H2]. }
  rewrite (proj1 (C38_corr_to_dist (OArr2 (pearson_matrix a)) m) T1 Hm), (proj1 (C38_corr_to_dist (OFrame names (pearson_matrix a)) m) T2 Hm).
  assert (Hc : correlation_like (pearson_matrix a)).
  { split; [reflexivity|]. cbn [pearson_matrix nrow ncol at2]. split.
    - intros i j Hi Hj. rewrite !Hp by auto. left. exists (pearson (x i) (x j)), (pearson (x j) (x i)). split; [auto|]. split; [auto|].
      destruct (Hx i Hi) as [Li _]. destruct (Hx j Hj) as [Lj _]. rewrite (pearson_sym (x j)) by congruence.
      unfold Rminus. rewrite Rplus_opp_r, Rabs_R0. pose proof (Rabs_pos (pearson (x i) (x j))). lra.
    - intros i Hi. rewrite Hp, pearson_self by auto. reflexivity. }
  destruct (proj1 (proj1 (C38_accepts_exactly m _ Hm)) Hc) as (r & Er). destruct (C38_matrix m _ r Hm Er) as (d & -> & Hd1 & Hd2 & Hd3 & Hd4).
  destruct (C38_frames_not_checked m names (pearson_matrix a) Hm) as (d' & Ef & Hf1 & Hf2 & Hf3).
  exists d, d'. split; [exact Er|]. split; [exact Ef|]. split; [exact Hd1|]. split; [exact Hd2|]. split; [exact Hf1|]. split; [exact Hf2|].
  intros i j Hi Hj. cbn [pearson_matrix nrow ncol at2] in *. destruct (Hx i Hi) as [Li Ei]. destruct (Hx j Hj) as [Lj Ej].
  destruct (Hf3 i j) as [Hff _]. specialize (Hff _ (Hp i j Hi Hj)). rewrite Hff, Ei, Ej, pair_real by (auto; congruence).
  rewrite clamp_id in * by (apply pearson_bounds; auto; congruence).
  destruct (Nat.eq_dec i j) as [<-|Hij].
  - rewrite Hd3 by auto. rewrite pearson_self, formula_one by auto. auto.
  - destruct (Hd4 i j Hi Hj Hij) as (v & Ev & _ & Hv2 & _). specialize (Hv2 _ (Hp i j Hi Hj)). rewrite Ev, Hv2.
    rewrite clamp_id by (apply pearson_bounds; auto; congruence). auto.
Qed.
Print Assumptions C79_matrix_of_pair_distances.

(** With a constant column the array call fails and the DataFrame call returns NaN in the column's row and column, the diagonal
    included. *)
Theorem C79_constant_column : forall sp a x names m k, real_data a x -> known_method m -> (1 <= nrow a)%nat ->
  (k < ncol a)%nat -> ~ varies (x k) ->
  get_corr_distance_matrix sp (OArr2 a) "pearson" m None = Raise AssertionError
  /\ exists d, get_corr_distance_matrix sp (OFrame names a) "pearson" m None = Ok (OFrame names d)
     /\ forall j, (j < ncol a)%nat -> at2 d k j = NaN /\ at2 d j k = NaN.
Proof.
  intros sp a x names m k [H2 Hx] Hm Hrow Hk Hv.
  assert (Hp : forall j, (j < ncol a)%nat -> pandas_pearson (col a k) (col a j) = NaN /\ pandas_pearson (col a j) (col a k) = NaN).
  { intros j Hj. destruct (Hx k Hk) as [Li Ei]. destruct (Hx j Hj) as [Lj Ej]. rewrite Ei, Ej. split; apply pandas_pearson_real; auto; try congruence; lia. }
  unfold get_corr_distance_matrix. cbn [existsb String.eqb Ascii.eqb Bool.eqb orb negb]. unfold calculate_correlation, check_2d.
  destruct (Nat.ltb_spec (ncol a) 2); [lia|]. cbn [bind String.eqb Ascii.eqb Bool.eqb].
  assert (T1 : exists b, (OArr2 (pearson_matrix a) = OArr2 b \/ exists n, OArr2 (pearson_matrix a) = OFrame n b) /\ (2 <= ncol b)%nat) by (exists (pearson_matrix a); split; [auto|exact H2]).
  assert (T2 : exists b, (OFrame names (pearson_matrix a) = OArr2 b \/ exists n, OFrame names (pearson_matrix a) = OFrame n b) /\ (2 <= ncol b)%nat).
  { exists (pearson_matrix a). split; [right; exists names; auto|exact H2]. }
  rewrite (proj1 (C38_corr_to_dist (OArr2 (pearson_matrix a)) m) T1 Hm), (proj1 (C38_corr_to_dist (OFrame names (pearson_matrix a)) m) T2 Hm). split.
  - apply C38_accepts_exactly; [auto|]. intros (_ & _ & Hd). specialize (Hd k Hk). cbn [pearson_matrix at2] in Hd. rewrite (proj1 (Hp k Hk)) in Hd. discriminate.
  - destruct (C38_frames_not_checked m names (pearson_matrix a) Hm) as (d & E & _ & _ & H'). exists d. split; [exact E|].
    intros j Hj. destruct (Hp j Hj) as [P1 P2]. split; apply H'; cbn [pearson_matrix at2]; auto.
Qed.
Print Assumptions C79_constant_column.

(** concrete data: two columns, then one of them constant *)
Example C79_example :
  real_data (mkArr 3 2 (fun i j => Fin (nth i (nth j [[1; 2; 4]; [3; 1; 2]] []) 0))) (fun j => nth j [[1; 2; 4]; [3; 1; 2]] [])
  /\ ~ varies [5; 5; 5].
Proof.
  split.
  - split; [cbn; lia|]. intros [|[|j]] Hj; cbn in Hj; [split; reflexivity|split; reflexivity|lia].
  - intros (a & b & Ha & Hb & H). cbn in Ha, Hb. intuition congruence.
Qed.
