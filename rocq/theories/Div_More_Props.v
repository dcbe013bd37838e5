(** C102: matrix divergences in closed form, their invariances, and what they are not. *)
From Coq Require Import Reals Lra Psatz List Arith Bool Lia.
From Verif Require Import Base Num Sums Lin Det Div_Model Div_Props.
Import ListNotations.
Open Scope R_scope.

Lemma det_mid_upper : forall n U, upper n U -> det n U = prodn n (fun i => U i i).
Proof.
  intros n U HU. rewrite <- (Rmult_1_r (prodn n _)), <- (det_mid n), <- (det_upper_mul n U mid HU). apply det_ext. apply meq_sym. apply mmul_id_r.
Qed.
Lemma posdef_det : forall n p, posdef n p -> 0 < det n p.
Proof.
  intros n p Hp. destruct (cholesky_exists n p Hp) as (L & HL & PL & E). rewrite (det_ext n _ _ E), det_lower_mul by auto.
  rewrite det_mid_upper by (intros i j Hi Hj H; apply HL; auto). unfold mtr. apply Rmult_lt_0_compat; apply prodn_pos; auto.
Qed.
Lemma inverse_det : forall n q Q, inverse n q Q -> det n q * det n Q = 1.
Proof. intros n q Q H. rewrite <- det_mmul, (det_ext n _ _ H). apply det_mid. Qed.
Lemma log_det_run : forall eigpos inv n p q Q, eigpos (mkM n n p) = true -> eigpos (mkM n n q) = true -> inv (mkM n n q) = Ok Q ->
  log_det_divergence eigpos inv (mkM n n p) (mkM n n q) = Ok (nsub (nsub (Fin (trace n (mmul n p Q))) (slogdet n (mmul n p Q))) (Fin (INR n))).
Proof.
  intros eigpos inv n p q Q Cp Cq Ei. unfold log_det_divergence, assert_positive_definite, check_positive, square. cbn [mrows mcols]. rewrite Nat.eqb_refl. cbn [negb].
  rewrite Cp, Cq, Ei. reflexivity.
Qed.

(** The log-determinant divergence is twice the Kullback-Leibler divergence of the centred normal laws with covariances p and q:
    tr(q^-1 p) - n + ln det q - ln det p. *)
Theorem C102_log_det_value : forall eigpos inv n p q Q, posdef n p -> posdef n q -> eigpos (mkM n n p) = true -> eigpos (mkM n n q) = true ->
  inv (mkM n n q) = Ok Q -> inverse n q Q ->
  log_det_divergence eigpos inv (mkM n n p) (mkM n n q) = Ok (Fin (trace n (mmul n Q p) - INR n + ln (det n q) - ln (det n p))).
Proof.
  intros eigpos inv n p q Q Hp Hq Cp Cq Ei HQ. rewrite (log_det_run _ _ _ _ _ Q) by auto. unfold slogdet. rewrite det_mmul.
  pose proof (posdef_det n p Hp) as Dp. pose proof (posdef_det n q Hq) as Dq. pose proof (inverse_det n q Q HQ) as D1.
  assert (DQ : det n Q = / det n q) by (apply Rmult_eq_reg_l with (det n q); [rewrite Rinv_r; lra|lra]). rewrite DQ.
  assert (P : 0 < det n p * / det n q) by (apply Rmult_lt_0_compat; [auto|apply Rinv_0_lt_compat; auto]). rewrite Rabs_right by lra. rewrite nlog_fin by auto.
  rewrite !nsub_fin. rewrite ln_mult, ln_Rinv by (auto; apply Rinv_0_lt_compat; auto). rewrite trace_comm. do 2 f_equal. ring.
Qed.
Print Assumptions C102_log_det_value.

(** Taking both covariances for the series y = M x instead of x, M invertible (other units, other portfolios, another order), changes nothing. *)
Theorem C102_log_det_congruence : forall eigpos inv n p q Q Q' M N, symmetric n q ->
  meq n (mmul n M N) mid -> meq n (mmul n N M) mid ->
  let conj := fun A => mkM n n (mmul n M (mmul n A (mtr M))) in
  eigpos (mkM n n p) = true -> eigpos (mkM n n q) = true -> eigpos (conj p) = true -> eigpos (conj q) = true ->
  inv (mkM n n q) = Ok Q -> inverse n q Q -> inv (conj q) = Ok Q' -> inverse n (ent (conj q)) Q' ->
  log_det_divergence eigpos inv (conj p) (conj q) = log_det_divergence eigpos inv (mkM n n p) (mkM n n q).
Proof.
  intros eigpos inv n p q Q Q' M N Sq MN NM conj Cp Cq Cp' Cq' Ei HQ Ei' HQ'. unfold conj. rewrite (log_det_run _ _ _ _ _ Q') by auto. rewrite (log_det_run _ _ _ _ _ Q) by auto.
  assert (Qq : meq n (mmul n Q q) mid) by (apply inverse_symmetric; auto).
  unfold conj in HQ'. cbn [ent] in HQ'.
  (* M' Q' = Q N *)
  assert (K : meq n (mmul n (mtr M) Q') (mmul n Q N)).
  { assert (E1 : meq n (mmul n q (mmul n (mtr M) Q')) N).
    { intros i j Hi Hj. rewrite <- (mmul_id_l n _ i j Hi Hj). rewrite <- (mmul_ext n _ _ _ _ NM (meq_refl n _) i j Hi Hj). rewrite mmul_assoc.
      rewrite (mmul_ext n N N _ mid (meq_refl n N)); auto; [apply mmul_id_r; auto|]. intros x y Hx Hy. rewrite <- (HQ' x y Hx Hy), mmul_assoc. apply (mmul_ext n M M _ _ (meq_refl n M)); auto.
      intros u v Hu Hv. rewrite mmul_assoc. reflexivity. }
    intros i j Hi Hj. rewrite <- (mmul_id_l n _ i j Hi Hj). rewrite <- (mmul_ext n _ _ _ _ Qq (meq_refl n _) i j Hi Hj). rewrite mmul_assoc. apply (mmul_ext n Q Q _ N (meq_refl n Q) E1); auto. }
  assert (E : meq n (mmul n (mmul n M (mmul n p (mtr M))) Q') (mmul n M (mmul n (mmul n p Q) N))).
  { intros i j Hi Hj. rewrite mmul_assoc. apply (mmul_ext n M M _ _ (meq_refl n M)); auto. intros u v Hu Hv. rewrite !mmul_assoc. apply (mmul_ext n p p _ _ (meq_refl n p) K); auto. }
  unfold slogdet. rewrite (trace_ext n _ _ E), (det_ext n _ _ E).
  assert (T : trace n (mmul n M (mmul n (mmul n p Q) N)) = trace n (mmul n p Q)).
  { rewrite trace_comm. apply trace_ext. intros i j Hi Hj. rewrite mmul_assoc. rewrite (mmul_ext n (mmul n p Q) _ _ mid (meq_refl n _) NM i j Hi Hj). apply mmul_id_r; auto. }
  assert (D : det n (mmul n M (mmul n (mmul n p Q) N)) = det n (mmul n p Q)).
  { rewrite (det_mmul n M), (det_mmul n (mmul n p Q) N). pose proof (inverse_det n M N MN). replace (det n M * (det n (mmul n p Q) * det n N)) with (det n M * det n N * det n (mmul n p Q)) by ring. rewrite H. ring. }
  rewrite T, D. reflexivity.
Qed.
Print Assumptions C102_log_det_congruence.

(** The divergence of the precision matrices is the divergence of the covariances with the arguments exchanged. *)
Theorem C102_log_det_precision : forall eigpos inv n p q P Q r, symmetric n p -> symmetric n q -> inverse n p P -> inverse n q Q ->
  eigpos (mkM n n p) = true -> eigpos (mkM n n q) = true -> eigpos (mkM n n P) = true -> eigpos (mkM n n Q) = true ->
  inv (mkM n n q) = Ok Q -> inv (mkM n n P) = Ok r -> inverse n P r ->
  log_det_divergence eigpos inv (mkM n n Q) (mkM n n P) = log_det_divergence eigpos inv (mkM n n p) (mkM n n q).
Proof.
  intros eigpos inv n p q P Q r Sp Sq HP HQ Cp Cq CP CQ Ei Er Hr. rewrite (log_det_run _ _ _ _ _ r) by auto. rewrite (log_det_run _ _ _ _ _ Q) by auto.
  assert (E : meq n r p).
  { intros i j Hi Hj. rewrite <- (mmul_id_l n r i j Hi Hj), <- (mmul_ext n _ _ _ _ HP (meq_refl n r) i j Hi Hj), mmul_assoc. rewrite (mmul_ext n p p _ mid (meq_refl n p) Hr i j Hi Hj). apply mmul_id_r; auto. }
  assert (E' : meq n (mmul n Q r) (mmul n Q p)) by (apply mmul_ext; [apply meq_refl|auto]).
  unfold slogdet. rewrite (trace_ext n _ _ E'), (det_ext n _ _ E'), trace_comm. rewrite !det_mmul, (Rmult_comm (det n Q)). reflexivity.
Qed.
Print Assumptions C102_log_det_precision.

(** ** uncorrelated variables *)
Definition diagonal (a : nat -> R) : mat := fun i j => if Nat.eqb i j then a i else 0.
Lemma diagonal_posdef : forall n a, (forall i, (i < n)%nat -> 0 < a i) -> posdef n (diagonal a).
Proof.
  intros n a Ha. split; [intros i j _ _; unfold mtr, diagonal; rewrite Nat.eqb_sym; destruct (Nat.eqb_spec j i); subst; reflexivity|]. intros x (k & Hk & Nk). unfold quad.
  assert (E : forall i, (i < n)%nat -> sumn n (fun j => x i * diagonal a i j * x j) = x i * x i * a i).
  { intros i Hi. rewrite (S_single n _ i Hi); [unfold diagonal; rewrite Nat.eqb_refl; ring|]. intros j _ Hj. unfold diagonal. rewrite (proj2 (Nat.eqb_neq i j)) by auto. ring. }
  rewrite (S_ext n _ (fun i => x i * x i * a i)) by auto. apply Rlt_le_trans with (x k * x k * a k).
  - apply Rmult_lt_0_compat; auto. apply Rsqr_pos_lt; auto.
  - apply (S_ge_term n (fun i => x i * x i * a i) k Hk). intros i Hi. specialize (Ha i Hi). apply Rmult_le_pos; [nra|lra].
Qed.
Lemma diagonal_mul : forall n a b, meq n (mmul n (diagonal a) (diagonal b)) (diagonal (fun i => a i * b i)).
Proof.
  intros n a b i j Hi Hj. unfold mmul. rewrite (S_single n _ i Hi); [unfold diagonal; rewrite Nat.eqb_refl; destruct (Nat.eqb i j); ring|]. intros k _ Hk. unfold diagonal. rewrite (proj2 (Nat.eqb_neq i k)) by auto. ring.
Qed.
Lemma diagonal_inverse : forall n b, (forall i, (i < n)%nat -> 0 < b i) -> inverse n (diagonal b) (diagonal (fun i => / b i)).
Proof.
  intros n b Hb i j Hi Hj. rewrite diagonal_mul by auto. unfold diagonal, mid. destruct (Nat.eqb i j); [|reflexivity]. specialize (Hb i Hi). field. lra.
Qed.
Lemma inverse_unique : forall n q Q Q', symmetric n q -> inverse n q Q -> inverse n q Q' -> meq n Q Q'.
Proof.
  intros n q Q Q' Sq HQ HQ' i j Hi Hj. assert (Qq := inverse_symmetric n q Q Sq HQ).
  rewrite <- (mmul_id_r n Q i j Hi Hj), <- (mmul_ext n Q Q _ _ (meq_refl n Q) HQ' i j Hi Hj), <- mmul_assoc. rewrite (mmul_ext n _ mid Q' Q' Qq (meq_refl n Q') i j Hi Hj). apply mmul_id_l; auto.
Qed.
Lemma diagonal_spectral : forall n a, meq n (diagonal a) (spectral n mid a).
Proof.
  intros n a i j Hi Hj. unfold spectral. rewrite (S_single n _ i Hi).
  - unfold diagonal, mid. rewrite Nat.eqb_refl, (Nat.eqb_sym j i). destruct (Nat.eqb i j); ring.
  - intros k _ Hk. unfold mid. rewrite (proj2 (Nat.eqb_neq i k)) by auto. ring.
Qed.
Theorem C102_diagonal : forall eigpos inv logm n a b Q, (forall i, (i < n)%nat -> 0 < a i /\ 0 < b i) ->
  let p := mkM n n (diagonal a) in let q := mkM n n (diagonal b) in
  eigpos p = true -> eigpos q = true -> inv q = Ok Q -> inverse n (diagonal b) Q ->
  meq n (logm p) (diagonal (fun i => ln (a i))) -> meq n (logm q) (diagonal (fun i => ln (b i))) ->
  log_det_divergence eigpos inv p q = Ok (Fin (sumn n (fun i => a i / b i - 1 - ln (a i / b i)))) /\
  von_neuman_divergence eigpos logm p q = Ok (sumn n (fun i => a i * ln (a i / b i) - a i + b i)).
Proof.
  intros eigpos inv logm n a b Q Pos p q Cp Cq Ei HQ Lp Lq. split.
  - unfold p, q. rewrite (log_det_run _ _ _ _ _ Q) by auto.
    assert (EQ : meq n Q (diagonal (fun i => / b i))).
    { apply (inverse_unique n (diagonal b)); auto; [apply diagonal_posdef; intros; apply Pos; auto|apply diagonal_inverse; intros; apply Pos; auto]. }
    assert (E : meq n (mmul n (diagonal a) Q) (diagonal (fun i => a i / b i))).
    { intros i j Hi Hj. rewrite (mmul_ext n (diagonal a) _ _ _ (meq_refl n _) EQ i j Hi Hj). apply diagonal_mul; auto. }
    unfold slogdet. rewrite (trace_ext n _ _ E), (det_ext n _ _ E). rewrite det_mid_upper by (intros i j Hi Hj H; unfold diagonal; rewrite (proj2 (Nat.eqb_neq i j)) by lia; reflexivity).
    assert (Pi : forall i, (i < n)%nat -> 0 < diagonal (fun i => a i / b i) i i).
    { intros i Hi. unfold diagonal. rewrite Nat.eqb_refl. destruct (Pos i Hi). apply Rdiv_lt_0_compat; auto. }
    pose proof (prodn_pos n _ Pi). rewrite Rabs_right by lra. rewrite nlog_fin, ln_prodn by auto. rewrite !nsub_fin. do 2 f_equal. unfold trace, diagonal. rewrite !S_minus.
    rewrite (S_ext n (fun i => ln (if Nat.eqb i i then a i / b i else 0)) (fun i => ln (a i / b i))) by (intros; rewrite Nat.eqb_refl; reflexivity).
    rewrite (S_ext n (fun i => if Nat.eqb i i then a i / b i else 0) (fun i => a i / b i)) by (intros; rewrite Nat.eqb_refl; reflexivity).
    assert (S1 : sumn n (fun _ => 1) = INR n) by (unfold sumn; rewrite rsum_const, seq_length; ring). rewrite S1. ring.
  - unfold von_neuman_divergence, assert_positive_definite, check_positive, square, compatible, p, q in *. cbn [mrows mcols ent] in *. rewrite !Nat.eqb_refl. cbn [negb orb bind]. rewrite Cp, Cq. cbn [bind].
    assert (H : Nat.eqb n 1 && negb (Nat.eqb n 1) = false) by (destruct (Nat.eqb n 1); reflexivity). rewrite H. cbv zeta. f_equal.
    assert (SP : forall c, meq n (spread (mkM n n (diagonal b)) c) c).
    { intros c i j Hi Hj. unfold spread. cbn [mrows]. destruct (Nat.eqb_spec n 1) as [E|]; [|reflexivity]. assert (i = 0%nat) by lia. assert (j = 0%nat) by lia. subst i j. reflexivity. }
    unfold trace. rewrite <- S_plus. apply S_ext. intros i Hi. destruct (Pos i Hi) as [Pa Pb]. rewrite SP by auto. unfold mmul. rewrite (S_single n _ i Hi).
    + rewrite SP, Lp, Lq by auto. unfold diagonal. rewrite Nat.eqb_refl. unfold Rdiv. rewrite ln_mult, ln_Rinv by (auto; apply Rinv_0_lt_compat; auto). ring.
    + intros k _ Hk. unfold diagonal. rewrite (proj2 (Nat.eqb_neq i k)) by auto. ring.
Qed.
Print Assumptions C102_diagonal.

(** ** the von Neumann divergence under rotations and scaling, when logm behaves like the matrix logarithm there *)
Theorem C102_von_neumann_rotation : forall eigpos logm n O p0 q0, orthogonal n O ->
  let rot := fun A : mat => mkM n n (mmul n O (mmul n A (mtr O))) in
  let p := mkM n n p0 in let q := mkM n n q0 in
  eigpos p = true -> eigpos q = true -> eigpos (rot (ent p)) = true -> eigpos (rot (ent q)) = true ->
  meq n (logm (rot (ent p))) (ent (rot (logm p))) -> meq n (logm (rot (ent q))) (ent (rot (logm q))) ->
  von_neuman_divergence eigpos logm (rot (ent p)) (rot (ent q)) = von_neuman_divergence eigpos logm p q.
Proof.
  intros eigpos logm n O p0 q0 HO rot p q Cp Cq Cp' Cq' Lp' Lq'.
  assert (SP : forall q c, mrows q = n -> meq n (spread q c) c).
  { intros q' c Hq i j Hi Hj. unfold spread. rewrite Hq. destruct (Nat.eqb_spec n 1) as [E|]; [|reflexivity]. assert (i = 0%nat) by lia. assert (j = 0%nat) by lia. subst i j. reflexivity. }
  unfold von_neuman_divergence, assert_positive_definite, check_positive, square, compatible.
  change (mrows (rot (ent p))) with n; change (mcols (rot (ent p))) with n; change (mrows (rot (ent q))) with n; change (mcols (rot (ent q))) with n.
  change (mrows p) with n; change (mcols p) with n; change (mrows q) with n; change (mcols q) with n.
  rewrite !Nat.eqb_refl. cbn [negb orb bind]. rewrite Cp, Cq, Cp', Cq'. cbn [bind].
  assert (H : Nat.eqb n 1 && negb (Nat.eqb n 1) = false) by (destruct (Nat.eqb n 1); reflexivity). rewrite H. cbv zeta. f_equal.
  destruct HO as [HO HO'].
  assert (RT : forall A, trace n (mmul n O (mmul n A (mtr O))) = trace n A).
  { intros A. rewrite trace_comm. apply trace_ext. intros i j Hi Hj. rewrite mmul_assoc. rewrite (mmul_ext n A A _ mid (meq_refl n A) HO i j Hi Hj). apply mmul_id_r; auto. }
  f_equal.
  - rewrite <- (RT (mmul n (ent p) (fun i j => logm p i j - spread q (logm q) i j))). apply trace_ext. intros i j Hi Hj. unfold rot at 1. cbn [ent].
    assert (E : meq n (fun i j => logm (rot (ent p)) i j - spread (rot (ent q)) (logm (rot (ent q))) i j) (mmul n O (mmul n (fun i j => logm p i j - spread q (logm q) i j) (mtr O)))).
    { intros x y Hx Hy. rewrite SP, Lp', Lq' by auto. unfold rot. cbn [ent].
      transitivity (mmul n O (mmul n (fun i j => logm p i j - logm q i j) (mtr O)) x y).
      - unfold mmul. rewrite <- S_minus. apply S_ext. intros k Hk. rewrite <- Rmult_minus_distr_l. f_equal. rewrite <- S_minus. apply S_ext. intros l _. ring.
      - apply (mmul_ext n O O _ _ (meq_refl n O)); auto. apply mmul_ext; [|apply meq_refl]. intros u v Hu Hv. rewrite SP by auto. reflexivity. }
    rewrite (mmul_ext n _ _ _ _ (meq_refl n _) E i j Hi Hj). rewrite mmul_assoc. apply (mmul_ext n O O _ _ (meq_refl n O)); auto. intros u v Hu Hv. rewrite !mmul_assoc.
    apply (mmul_ext n (ent p) (ent p) _ _ (meq_refl n _)); auto. intros x y Hx Hy. rewrite <- mmul_assoc. rewrite (mmul_ext n _ mid _ _ HO (meq_refl n _) x y Hx Hy). apply mmul_id_l; auto.
  - rewrite (trace_ext n _ (fun i j => - ent (rot (ent p)) i j + ent (rot (ent q)) i j)) by (intros i j Hi Hj; rewrite SP by auto; reflexivity).
    rewrite (trace_ext n (fun i j => - ent p i j + spread q (ent q) i j) (fun i j => - ent p i j + ent q i j)) by (intros i j Hi Hj; rewrite SP by auto; reflexivity).
    assert (TA : forall A B, trace n (fun i j => - A i j + B i j) = - trace n A + trace n B) by (intros; unfold trace; rewrite S_plus, S_opp; reflexivity).
    rewrite !TA. unfold rot. cbn [ent]. rewrite !RT. reflexivity.
Qed.
Print Assumptions C102_von_neumann_rotation.

Theorem C102_von_neumann_scale : forall eigpos logm n p q c d, 0 < c ->
  let scale := fun A : mat => mkM n n (fun i j => c * A i j) in
  eigpos (mkM n n p) = true -> eigpos (mkM n n q) = true -> eigpos (scale p) = true -> eigpos (scale q) = true ->
  (forall r, r = p \/ r = q -> meq n (logm (scale r)) (fun i j => logm (mkM n n r) i j + ln c * mid i j)) ->
  von_neuman_divergence eigpos logm (mkM n n p) (mkM n n q) = Ok d ->
  von_neuman_divergence eigpos logm (scale p) (scale q) = Ok (c * d).
Proof.
  intros eigpos logm n p q c d Hc scale Cp Cq Cp' Cq' L.
  assert (SP : forall q c, mrows q = n -> meq n (spread q c) c).
  { intros q' c' Hq i j Hi Hj. unfold spread. rewrite Hq. destruct (Nat.eqb_spec n 1) as [E|]; [|reflexivity]. assert (i = 0%nat) by lia. assert (j = 0%nat) by lia. subst i j. reflexivity. }
  unfold von_neuman_divergence, assert_positive_definite, check_positive, square, compatible.
  change (mrows (scale p)) with n; change (mcols (scale p)) with n; change (mrows (scale q)) with n; change (mcols (scale q)) with n. cbn [mrows mcols ent].
  rewrite !Nat.eqb_refl. cbn [negb orb bind]. rewrite Cp, Cq, Cp', Cq'. cbn [bind].
  assert (H : Nat.eqb n 1 && negb (Nat.eqb n 1) = false) by (destruct (Nat.eqb n 1); reflexivity). rewrite H. cbv zeta. intros E. injection E as <-. f_equal.
  rewrite Rmult_plus_distr_l. f_equal; unfold trace; rewrite <- S_scal; apply S_ext; intros i Hi.
  - unfold mmul. rewrite <- S_scal. apply S_ext. intros k Hk. rewrite !SP, !L by auto. unfold scale. cbn [ent]. ring.
  - rewrite !SP by auto. unfold scale. cbn [ent]. ring.
Qed.
Print Assumptions C102_von_neumann_scale.

(** ** not metrics: neither symmetric nor subject to the triangle inequality, already for single variances *)
Definition scalar (x : R) : rmat := mkM 1 1 (diagonal (fun _ => x)).
Definition inv1 (p : rmat) : res mat := Ok (diagonal (fun _ => / ent p 0%nat 0%nat)).
Definition log1 (p : rmat) : mat := diagonal (fun _ => ln (ent p 0%nat 0%nat)).
Lemma scalar_values : forall x y, 0 < x -> 0 < y ->
  log_det_divergence (fun _ => true) inv1 (scalar x) (scalar y) = Ok (Fin (x / y - 1 - (ln x - ln y))) /\
  von_neuman_divergence (fun _ => true) log1 (scalar x) (scalar y) = Ok (x * (ln x - ln y) - x + y).
Proof.
  intros x y Hx Hy. destruct (C102_diagonal (fun _ => true) inv1 log1 1 (fun _ => x) (fun _ => y) (diagonal (fun _ => / y))) as [E1 E2]; auto.
  - apply diagonal_inverse. auto.
  - intros i j _ _. reflexivity.
  - intros i j _ _. reflexivity.
  - unfold scalar. rewrite E1, E2. unfold sumn. cbn. unfold Rdiv. rewrite ln_mult, ln_Rinv by (auto; apply Rinv_0_lt_compat; auto). split; [do 2 f_equal; lra|f_equal; lra].
Qed.
Theorem C102_not_metrics_refuted : exists p q r : rmat,
  (exists u v w u', log_det_divergence (fun _ => true) inv1 p r = Ok (Fin u) /\ log_det_divergence (fun _ => true) inv1 p q = Ok (Fin v) /\ log_det_divergence (fun _ => true) inv1 q r = Ok (Fin w) /\
     log_det_divergence (fun _ => true) inv1 r p = Ok (Fin u') /\ v + w < u /\ u <> u') /\
  (exists u v w u', von_neuman_divergence (fun _ => true) log1 p r = Ok u /\ von_neuman_divergence (fun _ => true) log1 p q = Ok v /\ von_neuman_divergence (fun _ => true) log1 q r = Ok w /\
     von_neuman_divergence (fun _ => true) log1 r p = Ok u' /\ v + w < u /\ u <> u').
Proof.
  exists (scalar 1), (scalar 4), (scalar 16). assert (L4 : ln 4 = 2 * ln 2) by (replace 4 with (2 * 2) by lra; rewrite ln_mult by lra; ring).
  assert (L16 : ln 16 = 4 * ln 2) by (replace 16 with (4 * 4) by lra; rewrite ln_mult by lra; lra).
  pose proof (ln_le_sub1' 2 ltac:(lra)) as U2. pose proof (ln_le_sub1' (/ 2) ltac:(lra)) as B2. rewrite ln_Rinv in B2 by lra.
  split; do 4 eexists; (split; [apply scalar_values; lra|]); (split; [apply scalar_values; lra|]); (split; [apply scalar_values; lra|]); (split; [apply scalar_values; lra|]); rewrite L4, L16, ln_1; split; try lra.
Qed.
Print Assumptions C102_not_metrics_refuted.

(** ** the hypotheses are met *)
Example C102_diagonal_case : log_det_divergence (fun _ => true) (fun _ => Ok (diagonal (fun i => / (INR i + 1)))) (mkM 2 2 mid) (mkM 2 2 (diagonal (fun i => INR i + 1)))
  = Ok (Fin (trace 2 (mmul 2 (diagonal (fun i => / (INR i + 1))) mid) - 2 + ln 2 - ln 1)).
Proof.
  assert (Pos : forall i : nat, 0 < INR i + 1) by (intros i; pose proof (pos_INR i); lra).
  assert (PI : posdef 2 mid). { assert (E : forall i j, mid i j = diagonal (fun _ => 1) i j) by (intros; reflexivity). apply (diagonal_posdef 2 (fun _ => 1)). intros; lra. }
  rewrite (C102_log_det_value _ _ _ _ _ (diagonal (fun i => / (INR i + 1)))); auto.
  - do 2 f_equal. rewrite det_mid. replace (det 2 (diagonal (fun i => INR i + 1))) with 2; [cbn [INR]; lra|].
    rewrite det_mid_upper by (intros i j Hi Hj H; unfold diagonal; rewrite (proj2 (Nat.eqb_neq i j)) by lia; reflexivity). cbn. lra.
  - apply diagonal_posdef. auto.
  - apply diagonal_inverse. auto.
Qed.
Example C102_congruence_case : let M := diagonal (fun _ => 2) in let N := diagonal (fun _ => / 2) in meq 3 (mmul 3 M N) mid /\ meq 3 (mmul 3 N M) mid /\
  inverse 3 (mmul 3 M (mmul 3 mid (mtr M))) (diagonal (fun _ => / 4)).
Proof.
  cbv zeta. split; [|split]; intros i j Hi Hj.
  - rewrite diagonal_mul by auto. unfold diagonal, mid. destruct (Nat.eqb i j); lra.
  - rewrite diagonal_mul by auto. unfold diagonal, mid. destruct (Nat.eqb i j); lra.
  - assert (E : meq 3 (mmul 3 (diagonal (fun _ => 2)) (mmul 3 mid (mtr (diagonal (fun _ => 2))))) (diagonal (fun _ => 4))).
    { intros x y Hx Hy. rewrite (mmul_ext 3 _ _ _ (diagonal (fun _ => 2)) (meq_refl 3 _)); auto.
      - rewrite diagonal_mul by auto. unfold diagonal. destruct (Nat.eqb x y); lra.
      - intros u v Hu Hv. rewrite mmul_id_l by auto. unfold mtr, diagonal. rewrite Nat.eqb_sym. reflexivity. }
    rewrite (mmul_ext 3 _ _ _ _ E (meq_refl 3 _) i j Hi Hj). rewrite diagonal_mul by auto. unfold diagonal, mid. destruct (Nat.eqb i j); lra.
Qed.
