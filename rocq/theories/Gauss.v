(** The integral of the standard normal density, with Coquelicot (used by C112). *)
From Coq Require Import Reals Lra Psatz.
From Coquelicot Require Import Coquelicot.
Open Scope R_scope.

Definition bell (x : R) : R := exp (- (x ^ 2 / 2)).
Lemma bell_cont : forall x, continuous bell x.
Proof. intros x. apply (ex_derive_continuous bell). unfold bell. auto_derive. exact I. Qed.
Lemma bell_int : forall a b, ex_RInt bell a b.
Proof. intros a b. apply (ex_RInt_continuous bell). intros; apply bell_cont. Qed.
Definition area (t : R) : R := RInt bell 0 t.
Lemma area_derive : forall t, is_derive area t (bell t).
Proof. intros t. unfold area. apply (is_derive_RInt bell (fun t => RInt bell 0 t) 0 t). - exists (mkposreal 1 Rlt_0_1). intros y _. apply (RInt_correct bell). apply bell_int. - apply bell_cont. Qed.
Lemma area_0 : area 0 = 0.
Proof. unfold area. apply (RInt_point 0 bell). Qed.

(** the other summand *)
Definition gk (t x : R) : R := exp (- (t ^ 2 * (1 + x ^ 2) / 2)) / (1 + x ^ 2).
Lemma one_sq : forall x, 0 < 1 + x ^ 2. Proof. intros. nra. Qed.
Lemma gk_derive : forall t x : R, is_derive (fun t => gk t x) t (- t * exp (- (t ^ 2 * (1 + x ^ 2) / 2))).
Proof. intros t x. unfold gk. pose proof (one_sq x). auto_derive; [lra|]. unfold Rdiv. cbn [pow] in *. field. lra. Qed.
Lemma gk_cont : forall t x, continuous (gk t) x.
Proof. intros t x. apply (ex_derive_continuous (gk t)). unfold gk. pose proof (one_sq x). auto_derive. lra. Qed.
Lemma gk_int : forall t, ex_RInt (gk t) 0 1.
Proof. intros t. apply (ex_RInt_continuous (gk t)). intros; apply gk_cont. Qed.
Definition rest (t : R) : R := RInt (gk t) 0 1.
Lemma rest_derive : forall t, is_derive rest t (- (bell t * area t)).
Proof.
  intros t. assert (E : RInt (fun x => Derive (fun u => gk u x) t) 0 1 = - (bell t * area t)).
  { transitivity (RInt (fun x => scal (- bell t) (scal t (bell (t * x + 0)))) 0 1).
    - apply (RInt_ext (fun x => Derive (fun u => gk u x) t)). intros x _. etransitivity; [exact (is_derive_unique _ _ _ (gk_derive t x))|]. unfold scal, bell. cbn. unfold mult. cbn.
      replace (- (t * (t * 1) * (1 + x * (x * 1)) / 2)) with (- (t * (t * 1) / 2) + - ((t * x + 0) * ((t * x + 0) * 1) / 2)) by field. rewrite exp_plus. ring.
    - apply is_RInt_unique. replace (- (bell t * area t)) with (scal (- bell t) (area t)) by (unfold scal; cbn; unfold mult; cbn; ring).
      apply (is_RInt_scal (fun x => scal t (bell (t * x + 0))) 0 1 (- bell t)). apply (is_RInt_comp_lin bell t 0 0 1). assert (Z0 : t * 0 + 0 = 0) by lra. assert (Z1 : t * 1 + 0 = t) by lra. rewrite Z0, Z1. apply (RInt_correct bell). apply bell_int. }
  rewrite <- E. apply (is_derive_RInt_param gk 0 1 t).
  - exists (mkposreal 1 Rlt_0_1). intros u _ x _. eexists. apply gk_derive.
  - intros x _. apply (continuity_2d_pt_ext (fun u v => - u * exp (- (u ^ 2 * (1 + v ^ 2) / 2)))).
    + intros u v. symmetry. apply is_derive_unique, gk_derive.
    + apply continuity_2d_pt_mult; [apply continuity_2d_pt_opp, continuity_2d_pt_id1|].
      apply (continuity_1d_2d_pt_comp exp (fun u v => - (u ^ 2 * (1 + v ^ 2) / 2))); [apply derivable_continuous_pt, derivable_pt_exp|].
      apply continuity_2d_pt_opp. apply (continuity_2d_pt_ext (fun u v => (u * u) * (1 + v * v) * / 2)); [intros; field|].
      repeat (apply continuity_2d_pt_mult || apply continuity_2d_pt_plus || apply continuity_2d_pt_id1 || apply continuity_2d_pt_id2 || apply continuity_2d_pt_const).
  - exists (mkposreal 1 Rlt_0_1). intros u _. apply gk_int.
Qed.
Lemma rest_0 : rest 0 = PI / 4.
Proof.
  unfold rest. apply is_RInt_unique. rewrite <- atan_1. replace (atan 1) with (minus (atan 1) (atan 0)) by (rewrite atan_0; unfold minus, plus, opp; cbn; ring).
  apply (is_RInt_derive atan).
  - intros x _. unfold gk. replace (exp (- (0 ^ 2 * (1 + x ^ 2) / 2)) / (1 + x ^ 2)) with (/ (1 + x ^ 2)).
    + apply is_derive_Reals. apply derivable_pt_lim_atan.
    + replace (- (0 ^ 2 * (1 + x ^ 2) / 2)) with 0 by field. rewrite exp_0. pose proof (one_sq x). field. lra.
  - intros x _. apply gk_cont.
Qed.
Lemma rest_bounds : forall t, 0 <= rest t <= bell t.
Proof.
  intros t. split.
  - unfold rest. apply (RInt_ge_0 (gk t) 0 1); [lra|apply gk_int|]. intros x _. unfold gk. pose proof (one_sq x). pose proof (exp_pos (- (t ^ 2 * (1 + x ^ 2) / 2))). apply Rlt_le, Rdiv_lt_0_compat; lra.
  - unfold rest. replace (bell t) with (RInt (fun _ => bell t) 0 1) by (rewrite RInt_const; unfold scal; cbn; unfold mult; cbn; ring).
    apply (RInt_le (gk t) (fun _ => bell t) 0 1); [lra|apply gk_int|apply ex_RInt_const|]. intros x _. unfold gk, bell. pose proof (one_sq x).
    assert (exp (- (t ^ 2 * (1 + x ^ 2) / 2)) <= exp (- (t ^ 2 / 2))). { destruct (Req_dec (t ^ 2 * x ^ 2) 0) as [E|E]; [right; f_equal; nra|]. left. apply exp_increasing. assert (0 <= t ^ 2 * x ^ 2) by (apply Rmult_le_pos; nra). nra. }
    pose proof (exp_pos (- (t ^ 2 * (1 + x ^ 2) / 2))). apply Rmult_le_reg_r with (1 + x ^ 2); [lra|]. unfold Rdiv at 1. rewrite Rmult_assoc, Rinv_l by lra. nra.
Qed.
Lemma area_sq : forall t, area t ^ 2 / 2 + rest t = PI / 4.
Proof.
  intros t. set (h := fun t => area t ^ 2 / 2 + rest t). assert (D : forall u, is_derive h u 0).
  { intros u. unfold h. replace 0 with (plus (scal (bell u) (area u)) (- (bell u * area u))) by (unfold plus, scal; cbn; unfold mult; cbn; lra).
    apply (is_derive_plus (fun t => area t ^ 2 / 2) rest); [|apply rest_derive]. apply (is_derive_comp (fun y => y ^ 2 / 2) area); [|apply area_derive]. auto_derive; [exact I|field]. }
  replace (PI / 4) with (h 0) by (unfold h; rewrite area_0, rest_0; field). change (h t = h 0).
  destruct (MVT_gen h 0 t (fun _ => 0)) as (c & _ & E); [intros; apply D|intros; apply derivable_continuous_pt; exists 0; apply is_derive_Reals, D|]. lra.
Qed.
Lemma area_pos : forall t, 0 <= t -> 0 <= area t.
Proof. intros t H. unfold area. apply (RInt_ge_0 bell 0 t); [lra|apply bell_int|]. intros. apply Rlt_le, exp_pos. Qed.
Lemma area_odd : forall t, area (- t) = - area t.
Proof.
  intros t. unfold area. apply is_RInt_unique. apply (is_RInt_ext (fun x => opp (scal (-1) (bell (-1 * x + 0))))).
  - intros x _. unfold opp, scal, bell. cbn. unfold mult. cbn. replace ((-1 * x + 0) * ((-1 * x + 0) * 1)) with (x * (x * 1)) by ring. ring.
  - apply (is_RInt_opp (fun x => scal (-1) (bell (-1 * x + 0))) 0 (- t)). apply (is_RInt_comp_lin bell (-1) 0 0 (- t)). assert (Z0 : -1 * 0 + 0 = 0) by lra. assert (Z1 : -1 * - t + 0 = t) by lra. rewrite Z0, Z1. apply (RInt_correct bell). apply bell_int.
Qed.
Lemma bell_small : forall t, 0 < t -> bell t <= 1 / t.
Proof.
  intros t H. unfold bell. pose proof (exp_ineq1_le (t ^ 2 / 2)). rewrite exp_Ropp. unfold Rdiv at 2. rewrite Rmult_1_l. apply Rinv_le_contravar; [lra|]. nra.
Qed.
Lemma area_limit : filterlim area (Rbar_locally p_infty) (locally (sqrt (PI / 2))).
Proof.
  pose proof PI_RGT_0. set (r := sqrt (PI / 2)). assert (Pr : 0 < r) by (apply sqrt_lt_R0; lra). assert (Sr : r * r = PI / 2) by (apply sqrt_sqrt; lra).
  apply filterlim_locally. intros [e He]. exists (Rmax 1 (4 / (r * e))). intros t Ht. assert (T1 : 1 < t) by (eapply Rle_lt_trans; [apply Rmax_l|exact Ht]). assert (T2 : 4 / (r * e) < t) by (eapply Rle_lt_trans; [apply Rmax_r|exact Ht]).
  assert (Q : 0 < r * e) by nra. assert (T3 : 4 < t * (r * e)). { apply Rmult_lt_reg_r with (/ (r * e)); [apply Rinv_0_lt_compat; lra|]. rewrite (Rmult_assoc t), Rinv_r by lra. unfold Rdiv in T2. lra. }
  unfold ball. cbn. unfold AbsRing_ball, abs, minus, plus, opp. cbn. pose proof (area_sq t) as A. pose proof (rest_bounds t) as B. pose proof (bell_small t ltac:(lra)) as C. pose proof (area_pos t ltac:(lra)) as D.
  assert (E : 1 / t < r * e / 4). { apply Rmult_lt_reg_r with t; [lra|]. unfold Rdiv at 1. rewrite Rmult_assoc, Rinv_l by lra. lra. }
  assert (F : (r - area t) * (r + area t) = 2 * rest t) by nra. assert (G : r + area t > 0) by lra. assert (K : r * e / 2 <= e / 2 * (r + area t)) by nra. assert (M : Rabs (r - area t) < e / 2).
  { apply Rabs_def1; apply Rmult_lt_reg_r with (r + area t); lra. }
  change (Rabs (area t + - r) < e). replace (area t + - r) with (- (r - area t)) by ring. rewrite Rabs_Ropp. lra.
Qed.

(** ** the standard normal density and its integral *)
Definition phi (z : R) : R := exp (- (z ^ 2 / 2)) / sqrt (2 * PI).
Definition Phi0 (t : R) : R := area t / sqrt (2 * PI).
Lemma root_pos : 0 < sqrt (2 * PI). Proof. apply sqrt_lt_R0. pose proof PI_RGT_0. lra. Qed.
Lemma Phi0_derive : forall t : R, is_derive Phi0 t (phi t).
Proof.
  intros t. pose proof root_pos. apply (is_derive_ext (fun t => / sqrt (2 * PI) * area t)); [intros u; apply Rmult_comm|].
  replace (phi t) with (/ sqrt (2 * PI) * bell t) by (unfold phi, bell; field; lra). apply is_derive_scal. apply area_derive.
Qed.
Lemma half_area : sqrt (PI / 2) / sqrt (2 * PI) = 1 / 2.
Proof. pose proof PI_RGT_0. replace (2 * PI) with (2 ^ 2 * (PI / 2)) by field. rewrite sqrt_mult, sqrt_pow2 by lra. assert (0 < sqrt (PI / 2)) by (apply sqrt_lt_R0; lra). field. lra. Qed.
Lemma Phi0_right : filterlim Phi0 (Rbar_locally p_infty) (locally (1 / 2)).
Proof.
  rewrite <- half_area. apply (filterlim_comp R R R area (fun y => y / sqrt (2 * PI)) (Rbar_locally p_infty) (locally (sqrt (PI / 2)))); [apply area_limit|].
  apply (continuous_mult (fun y => y) (fun _ => / sqrt (2 * PI))); [apply continuous_id|apply continuous_const].
Qed.
Lemma Phi0_odd : forall t, Phi0 (- t) = - Phi0 t.
Proof. intros t. unfold Phi0. rewrite area_odd. unfold Rdiv. ring. Qed.
Lemma Phi0_left : filterlim Phi0 (Rbar_locally m_infty) (locally (- (1 / 2))).
Proof.
  apply (filterlim_ext (fun t => - Phi0 (- t))); [intros t; rewrite Phi0_odd; ring|].
  apply (filterlim_comp R R R (fun t => Phi0 (- t)) Ropp (Rbar_locally m_infty) (locally (1 / 2))); [|apply (filterlim_opp (1 / 2))].
  apply (filterlim_comp R R R Ropp Phi0 (Rbar_locally m_infty) (Rbar_locally p_infty)); [|apply Phi0_right]. apply (filterlim_Rbar_opp m_infty).
Qed.
Lemma Phi0_increasing : forall a b, a < b -> Phi0 a < Phi0 b.
Proof.
  intros a b H. destruct (MVT_gen Phi0 a b phi) as (c & _ & E); [intros; apply Phi0_derive|intros; apply derivable_continuous_pt; exists (phi x); apply is_derive_Reals, Phi0_derive|].
  assert (0 < phi c) by (unfold phi; apply Rdiv_lt_0_compat; [apply exp_pos|apply root_pos]). nra.
Qed.
Lemma phi_cont : forall z, continuous phi z.
Proof. intros z. pose proof root_pos. apply (ex_derive_continuous phi). unfold phi. auto_derive. lra. Qed.
Lemma phi_int : forall a b, is_RInt phi a b (Phi0 b - Phi0 a).
Proof. intros a b. apply (is_RInt_derive Phi0 phi a b); intros; [apply Phi0_derive|apply phi_cont]. Qed.

(** improper integrals from antiderivatives, on a set of reals closed under betweenness *)
Lemma improper_on : forall (D : R -> Prop) (F f : R -> R) (Fa Fb : (R -> Prop) -> Prop) {FFa : Filter Fa} {FFb : Filter Fb} la lb,
  (forall x y z, D x -> D y -> Rmin x y <= z <= Rmax x y -> D z) -> (forall x, D x -> locally x D) -> Fa D -> Fb D ->
  (forall x, D x -> is_derive F x (f x)) -> (forall x, D x -> continuous f x) -> filterlim F Fa (locally la) -> filterlim F Fb (locally lb) -> is_RInt_gen f Fa Fb (lb - la).
Proof.
  intros D F f Fa Fb FFa FFb la lb Bt Op Da Db HF Hf La Lb. assert (NB : forall P : R * R -> Prop, (forall x y, D x -> D y -> P (x, y)) -> filter_prod Fa Fb P) by (intros P H; apply (Filter_prod _ _ _ D D); auto).
  apply (is_RInt_gen_ext (Derive F)).
  - apply NB. intros x y Hx Hy z Hz. cbn [fst snd] in Hz. apply is_derive_unique. apply HF. apply (Bt x y); auto. lra.
  - apply (is_RInt_gen_Derive F la lb).
    + apply NB. intros x y Hx Hy z Hz. exists (f z). apply HF. apply (Bt x y); auto.
    + apply NB. intros x y Hx Hy z Hz. cbn [fst snd] in Hz. assert (Z : D z) by (apply (Bt x y); auto).
      apply (continuous_ext_loc (Derive F) f z); [|now apply Hf]. apply (filter_imp D); [|now apply Op]. intros w Hw. symmetry. apply is_derive_unique. now apply HF.
    + exact La.
    + exact Lb.
Qed.
Lemma improper_line : forall (F f : R -> R) la lb, (forall x, is_derive F x (f x)) -> (forall x, continuous f x) ->
  filterlim F (Rbar_locally m_infty) (locally la) -> filterlim F (Rbar_locally p_infty) (locally lb) -> is_RInt_gen f (Rbar_locally m_infty) (Rbar_locally p_infty) (lb - la).
Proof.
  intros F f la lb H1 H2 H3 H4. apply (improper_on (fun _ => True) F f); auto; try apply filter_true; try typeclasses eauto; intros; apply filter_true.
Qed.
Theorem gauss : is_RInt_gen phi (Rbar_locally m_infty) (Rbar_locally p_infty) 1.
Proof. replace 1 with (1 / 2 - - (1 / 2)) by field. apply (improper_line Phi0); [apply Phi0_derive|apply phi_cont|apply Phi0_left|apply Phi0_right]. Qed.
Print Assumptions gauss.
